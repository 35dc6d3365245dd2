(** Compat_main.v -- proofs of the properties stated in Props_Compat.v: annotations on the supported versions of Python *)

From Verif Require Import Base Py Filler Hints Names Compat Spec_Compat Demo DemoTyping.
Open Scope string_scope.
Open Scope list_scope.

Section Compat.
Context {obj ty W : Type} (P : Py obj ty W) (T : @Typing ty).
Notation written := (@written obj ty W).
Notation typing := (@typing obj ty W).
Notation tobj := (@tobj obj ty W).
Notation meta := (@meta obj ty W).
Notation hint_of := (hint_of P T).

Section Ind.
Context (Q : written -> Prop).
Context (QClass : forall t, Q (WClass t)) (QNone : Q WNone) (QAny : Q WAny) (QTypeVar : Q WTypeVar) (QEll : Q WEllipsis)
  (QText : forall s, Q (WText s)) (QNew : forall w, Q w -> Q (WNewType w)) (QBare : forall t n, Q (WBare t n))
  (QAlias : forall t ws, Forall Q ws -> Q (WAlias t ws)) (QCall0 : Q (WCallable None)) (QCall : forall ws, Forall Q ws -> Q (WCallable (Some ws)))
  (QUnion : forall ws, Forall Q ws -> Q (WUnion ws)) (QLit : forall l vs, Q (WLiteral l vs)) (QAnn : forall w ms, Q w -> Q (WAnn w ms)).
Fixpoint written_ind' (w : written) : Q w :=
  let all := fix all (ws : list written) : Forall Q ws :=
    match ws with [] => Forall_nil Q | w :: r => Forall_cons w (written_ind' w) (all r) end in
  match w with
  | WClass t => QClass t | WNone => QNone | WAny => QAny | WTypeVar => QTypeVar | WEllipsis => QEll
  | WText s => QText s | WNewType w => QNew w (written_ind' w) | WBare t n => QBare t n
  | WAlias t ws => QAlias t ws (all ws) | WCallable None => QCall0 | WCallable (Some ws) => QCall ws (all ws)
  | WUnion ws => QUnion ws (all ws) | WLiteral l vs => QLit l vs | WAnn w ms => QAnn w ms (written_ind' w)
  end.
End Ind.

(** what hint_of asks of a parameter besides its hint *)
Inductive face := FVar | FCls (t : ty) | FEll | FNo.
Definition face_of (y : typing) : face :=
  match y with YTypeVar => FVar | YClass t => FCls t | YEllipsis => FEll | _ => FNo end.
Definition alike (y y' : typing) : Prop := hint_of y = hint_of y' /\ face_of y = face_of y'.
Lemma alike_refl y : alike y y.
Proof. split; reflexivity. Qed.
Lemma alike_map ys ys' : Forall2 alike ys ys' -> map hint_of ys = map hint_of ys'.
Proof. induction 1 as [|a b r r' [H _] F IH]; cbn; congruence. Qed.
Lemma alike_has ys ys' : Forall2 alike ys ys' -> has_args ys = has_args ys'.
Proof.
  unfold has_args. induction 1 as [|a b r r' [_ H] F IH]; cbn; [reflexivity|]. rewrite IH. f_equal. f_equal.
  destruct a, b; cbn in *; congruence.
Qed.
Lemma alike_alias t ys ys' : Forall2 alike ys ys' -> hint_of (YAlias t ys) = hint_of (YAlias t ys').
Proof.
  intros F. cbn [Hints.hint_of]. rewrite (alike_has _ _ F). destruct (has_args ys'); [|reflexivity].
  destruct (ty_eqb P t (t_type P)).
  - f_equal. destruct F as [|a b r r' [_ H] F]; [reflexivity|]. destruct a, b; cbn in H; congruence.
  - rewrite (alike_map _ _ F). destruct (gmap T t) as [[|rk|rk|]|]; try reflexivity.
    + destruct F as [|a b r r' [H1 H1'] F]; [reflexivity|]. destruct F as [|c d s s' [H2 H2'] F]; [reflexivity|].
      destruct F; destruct c, d; cbn in H2' |- *; try discriminate; try reflexivity; congruence.
    + destruct F as [|a b r r' [H1 H1'] F]; [reflexivity|]. cbn. congruence.
    + destruct F as [|a b r r' [H1 H1'] F]; [reflexivity|]. destruct F as [|c d s s' [H2 H2'] F]; [reflexivity|]. destruct F; [congruence|reflexivity].
Qed.
Lemma bare_alike t n : alike (YAlias t (repeat YTypeVar n)) (YAlias t []).
Proof.
  split; [|reflexivity]. cbn [Hints.hint_of]. assert (H : has_args (repeat (@YTypeVar obj ty W) n) = false) by (induction n; cbn; auto). rewrite H. reflexivity.
Qed.

Context (names : string -> option ty).
Notation resolve := (@resolve obj ty W names).
Notation fits := (@fits obj ty W names).
Notation intended := (@intended obj ty W names).

Lemma metas_all (ms : list meta) : metas (map (@OMeta obj ty W) ms) = ms.
Proof. induction ms; cbn; [|unfold metas in IHms; rewrite IHms]; reflexivity. Qed.
Lemma values_all vs : values (map (@OValue obj ty W) vs) = vs.
Proof. induction vs; cbn; [|unfold values in IHvs; rewrite IHvs]; reflexivity. Qed.

(** the two sorts of Annotated *)
Definition own (v : version) (o : tobj) (ms : list meta) : tobj := match v with V39 => OStdAnn o ms | _ => OOwnAnn o ms end.
Lemma seen_ann n v (o : tobj) (ms : list meta) : ms <> [] -> is_annotation v o = false ->
  seen (S n) v (own v o ms) = (do y <- seen (S n) v o; Ok (YAnn y ms)).
Proof.
  intros H E. destruct ms as [|m ms]; [contradiction|]. cbn [seen]. unfold split_annotation at 2. rewrite E.
  assert (SA : split_annotation v (own v o (m :: ms)) = (o, map OMeta (m :: ms))) by (destruct v; reflexivity). rewrite SA.
  set (X := match o with ONewType _ => _ | _ => _ end). destruct X as [y|e]; cbn [obind]; [|reflexivity].
  rewrite metas_all. reflexivity.
Qed.

Lemma make_ann v (w : written) (o : tobj) : make v w = Ok o -> is_annotation v o = match w with WAnn _ _ => true | _ => false end.
Proof.
  destruct w; cbn [make]; intros H; try (injection H as <-; destruct v; reflexivity);
    try (match type of H with obind ?x _ = _ => destruct x end; cbn in H; [|discriminate]).
  - injection H as <-. destruct v; reflexivity.
  - injection H as <-. destruct v; reflexivity.
  - destruct ps; [match type of H with obind ?x _ = _ => destruct x end; cbn in H; [|discriminate]|]; injection H as <-; destruct v; reflexivity.
  - injection H as <-. destruct v; reflexivity.
  - destruct v; try discriminate; injection H as <-; reflexivity.
  - destruct v; try (injection H as <-; reflexivity). destruct ms; [discriminate|]. destruct (as_arg a); injection H as <-; reflexivity.
Qed.
Lemma make_inner w : forall o ms, make V39 w = Ok (@OStdAnn obj ty W o ms) -> ms <> [] /\ is_annotation V39 o = false.
Proof.
  induction w; intros o ms'; cbn [make]; intros H; try discriminate;
    try (match type of H with obind ?x _ = _ => destruct x eqn:E end; cbn in H; [|discriminate]); try discriminate.
  - destruct ps; [|discriminate]. match type of H with obind ?x _ = _ => destruct x eqn:E end; cbn in H; discriminate.
  - destruct ms as [|m ms]; [discriminate|]. destruct a; cbn in H; injection H as <- <-; try (split; [discriminate|reflexivity]).
    destruct (IHw _ _ eq_refl) as [_ H]. split; [|exact H]. destruct ms0; discriminate.
Qed.
Lemma resolve_ann (o o' : tobj) : resolve o = Ok o' -> is_annotation V39 o' = is_annotation V39 o.
Proof.
  destruct o; cbn [Compat.resolve]; intros H; try (injection H as <-; reflexivity).
  - destruct (names s); [|discriminate]. injection H as <-. reflexivity.
  - destruct (mapO _ _); [|discriminate]. cbn in H. injection H as <-. reflexivity.
  - destruct (resolve o); [|discriminate]. cbn in H. injection H as <-. reflexivity.
Qed.
Lemma intended_ann w : (exists y ms, intended w = YAnn y ms) \/ (match w with WAnn _ _ => False | _ => True end /\ forall ms, annotated (intended w) ms = YAnn (intended w) ms).
Proof.
  destruct w; cbn [Spec_Compat.intended]; try (right; split; [exact I|reflexivity]).
  - right. split; [exact I|]. destruct (names s); reflexivity.
  - left. unfold annotated. destruct (intended w); eauto.
Qed.

Definition good (v : version) (w : written) : Prop := exists o o', make v w = Ok o /\ resolve (as_arg o) = Ok o' /\
  (no_text w -> as_arg o = o /\ o' = o) /\
  forall fuel, depth w < fuel -> exists y, seen fuel v o' = Ok y /\ alike y (intended w).

Lemma fits_all v ws : fold_right (fun w p => fits v w /\ p) True ws -> Forall (fits v) ws.
Proof. induction ws; cbn; [constructor|]. intros [H1 H2]. constructor; auto. Qed.
Lemma no_text_all ws : fold_right (fun (w : written) p => no_text w /\ p) True ws -> Forall no_text ws.
Proof. induction ws; cbn; [constructor|]. intros [H1 H2]. constructor; auto. Qed.

Lemma good_all v ws : Forall (good v) ws -> exists os os', mapO (make v) ws = Ok os /\ mapO resolve (map as_arg os) = Ok os' /\
  (Forall no_text ws -> map as_arg os = os /\ os' = os) /\
  forall fuel, list_max (map depth ws) < fuel -> exists ys, mapO (seen fuel v) os' = Ok ys /\ Forall2 alike ys (map intended ws).
Proof.
  induction 1 as [|w ws (o & o' & M & R & N & S) F (os & os' & MS & RS & NS & SS)].
  - exists [], []. repeat split; auto. intros. exists []. split; [reflexivity|constructor].
  - exists (o :: os), (o' :: os'). cbn [mapO map]. rewrite M, MS. cbn [obind]. rewrite R, RS. cbn [obind]. split; [reflexivity|]. split; [reflexivity|]. split.
    + intros H. inversion H; subst. destruct N as [N1 N2]; [assumption|]. destruct NS as [NS1 NS2]; [assumption|]. split; congruence.
    + intros fuel L. cbn in L. destruct (S fuel) as (y & E & A); [lia|]. destruct (SS fuel) as (ys & ES & AS); [cbn; unfold list_max in *; lia|].
      exists (y :: ys). rewrite E, ES. split; [reflexivity|constructor; assumption].
Qed.

(** the objects that are not annotated, one step *)
Lemma good_plain v w : fits v w -> good v w.
Proof.
  revert v. induction w as [t| | | | |s|w IH|t n|t ws IH| |ws IH|ws IH|l vs|w ms IH] using written_ind'; intros v FW.
  - exists (OClass t), (OClass t). repeat split; auto. intros [|n] L; [inversion L|]. exists (YClass t). split; [destruct v; reflexivity|apply alike_refl].
  - exists ONone, ONone. repeat split; auto. intros [|n] L; [inversion L|]. exists YNone. split; [destruct v; reflexivity|apply alike_refl].
  - exists OAny, OAny. repeat split; auto. intros [|n] L; [inversion L|]. exists YAny. split; [destruct v; reflexivity|apply alike_refl].
  - exists OTypeVar, OTypeVar. repeat split; auto. intros [|n] L; [inversion L|]. exists YTypeVar. split; [destruct v; reflexivity|apply alike_refl].
  - exists OEllipsis, OEllipsis. repeat split; auto. intros [|n] L; [inversion L|]. exists YEllipsis. split; [destruct v; reflexivity|apply alike_refl].
  - cbn in FW. destruct (names s) as [t|] eqn:E; [|contradiction]. exists (OText s), (OClass t). split; [reflexivity|]. cbn. rewrite E. split; [reflexivity|].
    split; [intros []|]. intros [|n] L; [inversion L|]. exists (YClass t). split; [destruct v; reflexivity|apply alike_refl].
  - cbn in FW. destruct FW as [NT FW]. destruct (IH v FW) as (o & o' & M & R & N & S). destruct (N NT) as [N1 N2]. subst o'.
    exists (ONewType o), (ONewType o). cbn [make]. rewrite M. repeat split; auto.
    intros [|n] L; [inversion L|]. cbn in L. destruct (S n) as (y & E & [A _]); [lia|]. exists (YNewType y). split; [|split; [cbn; congruence|reflexivity]].
    assert (SA : split_annotation v (ONewType o) = (ONewType o, [])) by (destruct v; reflexivity). cbn [seen]. rewrite SA, E. reflexivity.
  - exists (OSpecial (ByClass t) n), (OSpecial (ByClass t) n). repeat split; auto. intros [|[|k]] L; cbn in L; [lia|lia|].
    assert (K : forall n, mapO (@seen obj ty W (S k) v) (repeat OTypeVar n) = Ok (repeat YTypeVar n)).
    { clear. intros n. induction n as [|n IH]; [reflexivity|]. cbn [repeat mapO]. rewrite IH. destruct v; reflexivity. }
    destruct v.
    + exists (YAlias t (repeat YTypeVar n)). split; [|apply bare_alike]. change (seen (S (S k)) V37 (OSpecial (ByClass t) n)) with
        (do y <- (do ys <- mapO (@seen obj ty W (S k) V37) (repeat OTypeVar n); Ok (YAlias t ys)); Ok y). rewrite K. reflexivity.
    + exists (YAlias t (repeat YTypeVar n)). split; [|apply bare_alike]. change (seen (S (S k)) V38 (OSpecial (ByClass t) n)) with
        (do y <- (do ys <- mapO (@seen obj ty W (S k) V38) (repeat OTypeVar n); Ok (YAlias t ys)); Ok y). rewrite K. reflexivity.
    + exists (YAlias t []). split; [reflexivity|apply alike_refl].
  - cbn in FW. apply fits_all in FW. assert (G : Forall (good v) ws).
    { apply Forall_forall. intros w Hw. rewrite Forall_forall in IH, FW. auto. }
    destruct (good_all v ws G) as (os & os' & M & R & N & S). exists (OAlias (ByClass t) (map as_arg os)), (OAlias (ByClass t) os').
    cbn [make]. rewrite M. cbn [obind as_arg Compat.resolve]. rewrite R. cbn [obind].
    split; [reflexivity|]. split; [reflexivity|]. split.
    + intros NT. cbn in NT. apply no_text_all in NT. destruct (N NT) as [N1 N2]. split; congruence.
    + intros [|n] L; [inversion L|]. cbn in L. destruct (S n) as (ys & E & A); [lia|]. exists (YAlias t ys). split; [|split; [apply alike_alias; exact A|reflexivity]].
      assert (SA : split_annotation v (@OAlias obj ty W (ByClass t) os') = (OAlias (ByClass t) os', [])) by (destruct v; reflexivity). cbn [seen]. rewrite SA.
      assert (GA : match get_args v (OAlias (ByClass t) os') with Some l => l | None => [] end = os') by (destruct v, os'; reflexivity). rewrite GA.
      assert (GO : get_origin v (OAlias (ByClass t) os') = Some (ByClass t)) by (destruct v; reflexivity). rewrite GO, E. reflexivity.
  - exists (OSpecial ByCallable 0), (OSpecial ByCallable 0). repeat split; auto. intros [|n] L; [inversion L|]. exists YCallable. split; [destruct v; reflexivity|apply alike_refl].
  - cbn in FW. apply fits_all in FW. assert (G : Forall (good v) ws).
    { apply Forall_forall. intros w Hw. rewrite Forall_forall in IH, FW. auto. }
    destruct (good_all v ws G) as (os & os' & M & R & N & S). exists (OAlias ByCallable (map as_arg os)), (OAlias ByCallable os').
    cbn [make]. rewrite M. cbn [obind as_arg Compat.resolve]. rewrite R. cbn [obind].
    split; [reflexivity|]. split; [reflexivity|]. split.
    + intros NT. cbn in NT. apply no_text_all in NT. destruct (N NT) as [N1 N2]. split; congruence.
    + intros [|n] L; [inversion L|]. exists YCallable. split; [destruct v; reflexivity|apply alike_refl].
  - cbn in FW. apply fits_all in FW. assert (G : Forall (good v) ws).
    { apply Forall_forall. intros w Hw. rewrite Forall_forall in IH, FW. auto. }
    destruct (good_all v ws G) as (os & os' & M & R & N & S). exists (OAlias ByUnion (map as_arg os)), (OAlias ByUnion os').
    cbn [make]. rewrite M. cbn [obind as_arg Compat.resolve]. rewrite R. cbn [obind].
    split; [reflexivity|]. split; [reflexivity|]. split.
    + intros NT. cbn in NT. apply no_text_all in NT. destruct (N NT) as [N1 N2]. split; congruence.
    + intros [|n] L; [inversion L|]. cbn in L. destruct (S n) as (ys & E & A); [lia|]. exists (YUnion ys). split; [|split; [cbn; rewrite (alike_map _ _ A); reflexivity|reflexivity]].
      assert (SA : split_annotation v (@OAlias obj ty W ByUnion os') = (OAlias ByUnion os', [])) by (destruct v; reflexivity). cbn [seen]. rewrite SA.
      assert (GA : match get_args v (OAlias ByUnion os') with Some l => l | None => [] end = os') by (destruct v, os'; reflexivity). rewrite GA.
      assert (GO : get_origin v (@OAlias obj ty W ByUnion os') = Some ByUnion) by (destruct v; reflexivity). rewrite GO, E. reflexivity.
  - cbn in FW. exists (OLiteral l vs), (OLiteral l vs). split; [destruct v; [contradiction|reflexivity..]|]. repeat split; auto.
    intros [|n] L; [inversion L|]. exists (YLiteral l vs). split; [|apply alike_refl].
    destruct v; [contradiction| |]; cbn -[values]; [destruct vs as [|x vs]; [reflexivity|]; cbn -[values]|]; rewrite ?values_all; try reflexivity.
    change (OValue x :: map OValue vs) with (map (@OValue obj ty W) (x :: vs)). rewrite values_all. reflexivity.
  - cbn in FW. destruct FW as (NE & FW & HV). destruct (IH v FW) as (o & o' & M & R & N & S). unfold good. cbn [make]. rewrite M. cbn [obind].
    assert (CV : v = V39 \/ (v <> V39 /\ no_text w /\ match w with WAnn _ _ => False | _ => True end)) by (destruct HV as [HV|HV]; [auto|destruct v; auto; right; repeat split; try discriminate; apply HV]).
    clear HV. destruct CV as [->|(NV & NT & NA)].
    + destruct (is_annotation V39 o) eqn:EA.
      * destruct o as [| | | | | | | | | | |o1 ms1| | |]; try discriminate. destruct (make_inner w o1 ms1 M) as [NE1 A1].
        cbn in R. destruct (resolve o1) as [o1'|e] eqn:R1; [|discriminate]. cbn in R. injection R as <-. pose proof (resolve_ann _ _ R1) as A1'.
        exists (OStdAnn o1 (ms1 ++ ms)), (OStdAnn o1' (ms1 ++ ms)). split; [destruct ms; [contradiction|reflexivity]|]. cbn [as_arg Compat.resolve]. rewrite R1.
        split; [reflexivity|]. split; [intros NT; destruct (N NT) as [_ N2]; injection N2 as ->; split; reflexivity|].
        intros [|n] L; [inversion L|]. destruct (S (Datatypes.S n) L) as (y & E & [A2 _]).
        change (OStdAnn o1' ms1) with (own V39 o1' ms1) in E. rewrite seen_ann in E; [|exact NE1|congruence].
        change (OStdAnn o1' (ms1 ++ ms)) with (own V39 o1' (ms1 ++ ms)). rewrite seen_ann; [|destruct ms1; [contradiction|discriminate]|congruence].
        destruct (seen (Datatypes.S n) V39 o1') as [y1|e]; [|discriminate]. cbn in E |- *. injection E as <-. exists (YAnn y1 (ms1 ++ ms)). split; [reflexivity|].
        pose proof (make_ann V39 w _ M) as K. destruct w; try discriminate.
        destruct (intended_ann (WAnn w ms0)) as [(y' & ms' & K')|[[] _]]. rewrite K' in A2.
        change (intended (WAnn (WAnn w ms0) ms)) with (annotated (intended (WAnn w ms0)) ms). rewrite K'. cbn in A2 |- *.
        injection A2 as A2 A3. split; [|reflexivity]. cbn. rewrite !map_app. congruence.
      * assert (A1 : is_annotation V39 (as_arg o) = false) by (destruct o; auto). pose proof (resolve_ann _ _ R) as A1'.
        exists (OStdAnn (as_arg o) ms), (OStdAnn o' ms). split; [destruct ms; [contradiction|]; destruct o; try reflexivity; discriminate|]. cbn [as_arg Compat.resolve]. rewrite R.
        split; [reflexivity|]. split; [intros NT; destruct (N NT) as [N1 N2]; split; congruence|].
        intros [|n] L; [inversion L|]. destruct (S (Datatypes.S n) L) as (y & E & [A2 A3]).
        change (OStdAnn o' ms) with (own V39 o' ms). rewrite seen_ann; [|exact NE|congruence]. rewrite E. cbn [obind]. exists (YAnn y ms). split; [reflexivity|].
        cbn [Spec_Compat.intended]. pose proof (make_ann V39 w _ M) as K. rewrite EA in K.
        destruct (intended_ann w) as [(y' & ms' & K')|[_ K']]; [exfalso|].
        { destruct w; cbn in K'; try discriminate. destruct (names s); discriminate. }
        rewrite K'. split; [cbn; congruence|reflexivity].
    + destruct (N NT) as [N1 N2]. subst o'. exists (OOwnAnn o ms), (OOwnAnn o ms).
      assert (OW : OOwnAnn o ms = own v o ms) by (destruct v; [reflexivity..|contradiction]).
      split; [destruct v; [reflexivity..|contradiction]|]. repeat split; auto.
      intros fuel L. destruct (S fuel L) as (y & E & [A1 A2]). destruct fuel as [|n]; [inversion L|].
      rewrite OW, seen_ann; [|exact NE|rewrite (make_ann v w o M); destruct w; try reflexivity; contradiction].
      rewrite E. cbn [obind]. exists (YAnn y ms). split; [reflexivity|]. cbn [Spec_Compat.intended].
      destruct (intended_ann w) as [(y' & ms' & K)|[_ K]]; [exfalso|].
      * destruct w; cbn in K; try discriminate; contradiction.
      * rewrite K. split; [cbn; congruence|reflexivity].
Qed.

(** 3.7 and 3.8 *)
Lemma mapO_ext {A B} (f g : A -> outcome B) l r : Forall (fun a => forall b, f a = Ok b -> g a = Ok b) l -> mapO f l = Ok r -> mapO g l = Ok r.
Proof.
  intros F. revert r. induction F as [|a l H F IH]; intros r E; [exact E|]. cbn [mapO] in E |- *.
  destruct (f a) as [b|e] eqn:EF; [|discriminate]. cbn [obind] in E. rewrite (H b eq_refl). cbn [obind].
  destruct (mapO f l) as [bs|e]; [|discriminate]. rewrite (IH bs eq_refl). exact E.
Qed.
Lemma make_old (w : written) : forall o, make V37 w = Ok o -> make V38 w = Ok o.
Proof.
  induction w as [t| | | | |s|w IH|t n|t ws IH| |ws IH|ws IH|l vs|w ms IH] using written_ind'; intros o; cbn [make]; intros H; try exact H; try discriminate.
  - destruct (make V37 w) as [o1|e]; [|discriminate]. rewrite (IH o1 eq_refl). exact H.
  - destruct (mapO (make V37) ws) as [os|e] eqn:E; [|discriminate]. rewrite (mapO_ext _ _ _ _ IH E). exact H.
  - destruct (mapO (make V37) ws) as [os|e] eqn:E; [|discriminate]. rewrite (mapO_ext _ _ _ _ IH E). exact H.
  - destruct (mapO (make V37) ws) as [os|e] eqn:E; [|discriminate]. rewrite (mapO_ext _ _ _ _ IH E). exact H.
  - destruct (make V37 w) as [o1|e]; [|discriminate]. rewrite (IH o1 eq_refl). exact H.
Qed.
(** objects that only 3.9 has *)
Fixpoint no_std (o : tobj) : Prop :=
  match o with
  | OStdAnn _ _ => False
  | ONewType o | OOwnAnn o _ => no_std o
  | OAlias _ args => fold_right (fun o p => no_std o /\ p) True args
  | _ => True
  end.
Lemma no_std_all os : fold_right (fun o p => no_std o /\ p) True os <-> Forall no_std os.
Proof. induction os as [|o os IH]; cbn; [split; [constructor|auto]|]. rewrite IH. split; [intros [H1 H2]; constructor; assumption|intros H; inversion H; auto]. Qed.
Lemma make_no_std : forall (w : written) o, make V37 w = Ok o -> no_std o.
Proof.
  assert (ALL : forall ws os, Forall (fun w => forall o, make V37 w = Ok o -> no_std o) ws -> mapO (make V37) ws = Ok os -> Forall no_std (map as_arg os)).
  { intros ws os F. revert os. induction F as [|w ws H F IH]; intros os E; cbn [mapO] in E; [injection E as <-; constructor|].
    destruct (make V37 w) as [o|e] eqn:EM; [|discriminate]. cbn [obind] in E. destruct (mapO (make V37) ws) as [os'|e]; [|discriminate]. cbn [obind] in E. injection E as <-.
    constructor; [|apply IH; reflexivity]. specialize (H o eq_refl). destruct o; exact H || exact I. }
  induction w as [t| | | | |s|w IH|t n|t ws IH| |ws IH|ws IH|l vs|w ms IH] using written_ind'; intros o; cbn [make]; intros H;
    try (injection H as <-; exact I); try discriminate.
  - destruct (make V37 w) as [o1|e]; [|discriminate]. cbn in H. injection H as <-. exact (IH o1 eq_refl).
  - destruct (mapO (make V37) ws) as [os|e] eqn:E; [|discriminate]. cbn [obind] in H. injection H as <-. apply no_std_all. eapply ALL; eassumption.
  - destruct (mapO (make V37) ws) as [os|e] eqn:E; [|discriminate]. cbn [obind] in H. injection H as <-. apply no_std_all. eapply ALL; eassumption.
  - destruct (mapO (make V37) ws) as [os|e] eqn:E; [|discriminate]. cbn [obind] in H. injection H as <-. apply no_std_all. eapply ALL; eassumption.
  - destruct (make V37 w) as [o1|e]; [|discriminate]. cbn in H. injection H as <-. exact (IH o1 eq_refl).
Qed.
Lemma no_std_resolve : forall o o', no_std o -> resolve o = Ok o' -> no_std o'.
Proof.
  fix IH 1. intros o o' N R. destruct o as [t| | | | |s|s|o|g n|g args|l vs|o ms|o ms|m|x]; cbn [Compat.resolve] in R; try (injection R as <-; exact N).
  - destruct (names s); [|discriminate]. injection R as <-. exact I.
  - destruct (mapO resolve args) as [args'|e] eqn:E; [|discriminate]. cbn [obind] in R. injection R as <-. cbn [no_std] in N |- *. apply no_std_all. apply no_std_all in N.
    revert args' E. induction args as [|a args IHl]; intros args' E; cbn [mapO] in E; [injection E as <-; constructor|].
    inversion N as [|? ? N1 N2]; subst. destruct (resolve a) as [a'|e] eqn:EA; [|discriminate]. cbn [obind] in E. destruct (mapO resolve args) as [r|e] eqn:ER; [|discriminate].
    cbn [obind] in E. injection E as <-. constructor; [exact (IH a a' N1 EA)|]. apply IHl; [exact N2|reflexivity].
  - contradiction.
Qed.
Lemma mapO_same {A B} (f g : A -> outcome B) l : Forall (fun a => f a = g a) l -> mapO f l = mapO g l.
Proof. induction 1 as [|a l H F IH]; cbn [mapO]; [reflexivity|]. rewrite H, IH. reflexivity. Qed.
Lemma old_origin (o : tobj) : no_std o -> get_origin V37 o = get_origin V38 o.
Proof. destruct o; cbn; try reflexivity. intros []. Qed.
Lemma old_args (o : tobj) : no_std o -> match get_args V37 o with Some l => l | None => [] end = match get_args V38 o with Some l => l | None => [] end \/ get_origin V37 o = Some ByCallable.
Proof.
  destruct o as [t| | | | |s|s|o|g n|g args|l vs|o ms|o ms|m|x]; cbn; try (left; reflexivity); try (intros []).
  - destruct g; auto.
  - destruct args; auto.
  - destruct vs; auto.
Qed.
Lemma seen_old : forall fuel (o : tobj), no_std o -> seen fuel V37 o = seen fuel V38 o.
Proof.
  induction fuel as [|n IH]; intros o N; [reflexivity|]. cbn [seen].
  assert (SA : split_annotation V37 o = split_annotation V38 o) by (destruct o; reflexivity). rewrite SA.
  destruct (split_annotation V38 o) as [t args] eqn:ES.
  assert (NT : no_std t) by (destruct o; cbn in ES; injection ES as <- <-; exact N).
  match goal with |- obind ?a _ = obind ?b _ => assert (E : a = b) end; [|rewrite E; reflexivity].
  assert (AA : forall l, Forall no_std l -> mapO (seen n V37) l = mapO (seen n V38) l).
  { intros l F. apply mapO_same. eapply Forall_impl; [|exact F]. exact IH. }
  assert (NA : Forall no_std (match get_args V38 t with Some l => l | None => [] end)).
  { destruct t as [t| | | | |s|s|o1|g k|g args1|l vs|o1 ms|o1 ms|m|x]; cbn; try constructor.
    - destruct g; cbn; try (apply Forall_forall; intros z Hz; apply repeat_spec in Hz; subst z; exact I). constructor.
    - cbn in NT. apply no_std_all in NT. destruct args1; assumption.
    - destruct vs as [|x vs]; cbn; [constructor|]. constructor; [exact I|]. apply Forall_forall. intros z Hz. apply in_map_iff in Hz. destruct Hz as (q & <- & _). exact I.
    - contradiction.
    - contradiction.
    - exact NT.
    - apply Forall_forall. intros z Hz. apply in_map_iff in Hz. destruct Hz as (q & <- & _). exact I. }
  destruct (old_args t NT) as [EA|EC].
  - rewrite EA, <- (old_origin t NT). destruct t as [t| | | | |s|s|o1|g k|g args1|l vs|o1 ms|o1 ms|m|x]; try reflexivity;
      try (rewrite !(AA _ NA); reflexivity). rewrite IH; [reflexivity|exact NT].
  - rewrite <- (old_origin t NT), EC. destruct t as [t| | | | |s|s|o1|g k|g args1|l vs|o1 ms|o1 ms|m|x]; try reflexivity; discriminate.
Qed.
End Compat.

Lemma c132_current_proof : forall {obj ty W} (P : Py obj ty W) T names (w : @written obj ty W) fuel,
  fits names V39 w -> depth w < fuel ->
  exists y, meaning names fuel V39 w = Ok y /\ hint_of P T y = hint_of P T (intended names w).
Proof.
  intros obj ty W P T names w fuel F L. destruct (good_plain P T names V39 w F) as (o & o' & M & R & _ & S). destruct (S fuel L) as (y & E & [A _]).
  exists y. split; [|exact A]. unfold meaning, type_hint. rewrite M. cbn [obind]. rewrite R. exact E.
Qed.

Lemma c132_versions_partial_proof : forall {obj ty W} (P : Py obj ty W) T names v v' (w : @written obj ty W) fuel,
  fits names v w -> fits names v' w -> depth w < fuel ->
  exists y y', meaning names fuel v w = Ok y /\ meaning names fuel v' w = Ok y' /\
    hint_of P T y = hint_of P T y' /\ hint_of P T y = hint_of P T (intended names w).
Proof.
  intros obj ty W P T names v v' w fuel F F' L.
  destruct (good_plain P T names v w F) as (o & o' & M & R & _ & S). destruct (S fuel L) as (y & E & [A _]).
  destruct (good_plain P T names v' w F') as (p & p' & M' & R' & _ & S'). destruct (S' fuel L) as (y' & E' & [A' _]).
  exists y, y'. unfold meaning, type_hint. rewrite M, M'. cbn [obind]. rewrite R, R'. cbn [obind]. repeat split; congruence.
Qed.

Lemma c132_nested_refuted_proof : forall {obj ty W} (P : Py obj ty W) T names v t (m m' : @meta obj ty W) dflt,
  let w := WAnn (WAnn (WClass t) [m]) [m'] in
  v <> V39 ->
  fits names V39 w /\
  (exists y, meaning names 1 V39 w = Ok y /\ hint_of P T y = hint_of P T (YAnn (YClass t) [m; m'])) /\
  exists y, meaning names 1 v w = Ok y /\ exists msg, make_filler P dflt (hint_of P T y) [] = Raise (Exc TypeError msg None).
Proof.
  intros obj ty W P T names v t m m' dflt w NV. split; [cbn; repeat split; try discriminate; left; reflexivity|]. split; [eexists; split; reflexivity|].
  destruct v; [| |contradiction]; (eexists; split; [reflexivity|]; eexists; reflexivity).
Qed.

Lemma c132_text_refuted_proof : forall {obj ty W} (P : Py obj ty W) T names v s t (m : @meta obj ty W) dflt,
  let w := WAnn (WText s) [m] in
  v <> V39 -> names s = Some t ->
  fits names V39 w /\
  (exists y, meaning names 1 V39 w = Ok y /\ hint_of P T y = hint_of P T (YAnn (YClass t) [m])) /\
  exists y, meaning names 1 v w = Ok y /\ exists msg, make_filler P dflt (hint_of P T y) [] = Raise (Exc TypeError msg None).
Proof.
  intros obj ty W P T names v s t m dflt w NV E. split; [cbn; rewrite E; repeat split; try discriminate; left; reflexivity|].
  split; [exists (YAnn (YClass t) [m]); split; [unfold meaning, type_hint; cbn; rewrite E; reflexivity|reflexivity]|].
  destruct v; [| |contradiction]; (eexists; split; [reflexivity|]; eexists; reflexivity).
Qed.

Lemma c132_old_versions_proof : forall {obj ty W} names (w : @written obj ty W) o o' fuel,
  make V37 w = Ok o -> type_hint names o = Ok o' ->
  make V38 w = Ok o /\ seen fuel V37 o' = seen fuel V38 o'.
Proof.
  intros obj ty W names w o o' fuel M R. split; [exact (make_old w o M)|]. apply seen_old. eapply no_std_resolve; [|exact R].
  assert (K := make_no_std w o M). destruct o; try exact K; exact I.
Qed.
