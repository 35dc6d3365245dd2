(** Members_main.v -- proofs of the properties stated in Props_Members.v: tokens on a Union (records/fillers/builtin_fillers/typing_fillers.py:23-71) *)

From Verif Require Import Base Py Filler Spec_Filler Spec_Mixed Spec_Members Demo.
From Verif Require Import Wider_main Groups_main Mixed_main.
From Verif Require Filler_proofs Filler_shape Filler_eqs.
Open Scope string_scope.
Open Scope list_scope.

Import Filler_proofs Filler_shape Filler_eqs.
Section Members.
Context {obj ty W : Type} (P : Py obj ty W).
Notation token := (@token obj ty W).
Notation hint := (@hint obj ty W).
Notation filler := (@filler obj ty W).
Notation akind := (@akind obj ty).
Notation matching := (@matching obj ty W).
Notation alike := (@alike obj ty W P).
Notation made := (@made obj ty W P).

Lemma same_matching : forall d (k : akind) own own' pre pre' a1 a2, pre' ++ own' = pre ++ own ->
  aapplys P (mk_afiller k own) pre = Ok a1 -> abind P d a1 = Ok a2 ->
  exists b1 b2, aapplys P (mk_afiller k own') pre' = Ok b1 /\ abind P d b1 = Ok b2 /\ matching a2 b2.
Proof.
  intros d k own own' pre pre' a1 a2 HO H1 H2. destruct (bound_afiller P d pre k own a1 a2 H1 H2) as (cs & vs & HC & HV & E & HH & HS).
  rewrite <- HO in HC, HV. pose proof (bound_fwd P d pre' k own' cs vs HC HV) as B. cbv zeta in B. rewrite HO in B.
  assert (N1 : style_eqb (eff_style d (pre ++ own)) SHollow && negb (match cs with [] => true | _ => false end) = false).
  { destruct (style_eqb_spec (eff_style d (pre ++ own)) SHollow) as [X|]; [|reflexivity]. rewrite (HH X). reflexivity. }
  assert (N2 : style_eqb (eff_style d (pre ++ own)) SStrict && kind_abstract P k = false).
  { destruct (style_eqb_spec (eff_style d (pre ++ own)) SStrict) as [X|]; [|reflexivity]. rewrite (HS X). reflexivity. }
  rewrite N1, N2 in B. set (s := eff_style d (pre ++ own)) in *.
  assert (B' : (do b1 <- aapplys P (mk_afiller k own') pre'; abind P d b1) = Ok (AF k own' s cs (vs ++ lit_validators P k s) true)) by (destruct k; exact B).
  destruct (aapplys P (mk_afiller k own') pre') as [b1|e]; [|discriminate]. cbn in B'. exists b1. eexists. split; [reflexivity|]. split; [exact B'|].
  rewrite E. repeat split. cbn. clear. induction (vs ++ lit_validators P k s); constructor; auto.
Qed.

Lemma matching_alike : forall a b f g, matching a b -> (is_hollow f = ahollow a) -> (is_hollow g = ahollow b) ->
  (forall x w, fill P f x w = afill P a x w) -> (forall x w, fill P g x w = afill P b x w) -> alike f g.
Proof.
  intros a b f g M HF HG EF EG. split; [rewrite HF, HG; apply matching_hollow; exact M|]. intros x w. rewrite EF, EG. apply matching_fill. exact M.
Qed.

Ltac kept M := (eexists; split; [reflexivity|]; eapply matching_alike; [exact M|reflexivity|reflexivity|reflexivity|reflexivity]).
Ltac more M v := (let M2 := fresh in pose proof (matching_add _ _ v v M (fun x w => eq_refl)) as M2; kept M2).

(** the tokens of the Union or of the annotation: it is the two lists behind each other that counts *)
Lemma moved : forall h d own own' pre pre' f, is_annotated h = false -> pre' ++ own' = pre ++ own -> (is_union h = true -> own' ++ pre' = own ++ pre) ->
  made d own pre h = Ok f -> exists g, made d own' pre' h = Ok g /\ alike f g.
Proof.
  unfold Mixed_main.made.
  induction h as [t| | | |h IH|hs IH|l vs|base|hs IH|h IH|rk t h IH|rk t hk hv IH1 IH2|t hs IH|t| |h toks IH] using hint_ind'; intros d own own' pre pre' f HA HO HU H.
  1,2,3,4,7,14: cbn in H |- *; oinv H; oinv H; injection H as <-; destruct (same_matching d _ own own' pre pre' _ _ HO Ha Ha0) as (b1 & b2 & -> & B2 & M); cbn; rewrite B2; cbn; kept M.
  - (* NewType *) assert (L : List.length own' + List.length pre' = List.length own + List.length pre) by (rewrite !(Nat.add_comm (List.length _) (List.length pre)), (Nat.add_comm (List.length own')), <- !app_length, HO; reflexivity).
    destruct h; try (apply (IH d own own' pre pre' f eq_refl HO HU); exact H).
    cbn in H |- *. destruct own; [|discriminate]. cbn in H. destruct pre; [|discriminate]. cbn in H, L. destruct own'; [|discriminate L]. destruct pre'; [|discriminate L]. exists f. split; [exact H|]. split; reflexivity.
  - (* Union *) specialize (HU eq_refl). cbn in H |- *. oinv H. oinv Ha. injection Ha as <-. cbn in H. oinv H. injection H as <-. rewrite Haa. cbn. rewrite HU, Ha. cbn.
    eexists. split; [reflexivity|]. split; reflexivity.
  - (* Type *) cbn in H |- *. oinv H. oinv H. injection H as <-. destruct (same_matching d _ own own' pre pre' _ _ HO Ha Ha0) as (b1 & b2 & -> & B2 & M). cbn. rewrite B2. cbn.
    rewrite (matching_hollow _ _ M). destruct (ahollow a0); [kept M|more M (type_validator P base)].
  - (* Tuple[T1, ..., Tn] *) cbn in H |- *. oinv H. oinv Ha. injection Ha as <-. cbn in H. oinv H. oinv H. oinv H. rewrite Haa.
    destruct (same_matching d _ own own' pre pre' _ _ HO Ha Ha0) as (b1 & b2 & B1 & B2 & M). cbn. rewrite B1. cbn. rewrite B2. cbn. rewrite Ha1. cbn. rewrite (matching_hollow _ _ M).
    set (x1 := if ahollow a1 then a1 else add_validator a1 (len_validator P (List.length a0))) in *. set (y1 := if ahollow a1 then b2 else add_validator b2 (len_validator P (List.length a0))) in *.
    assert (M1 : matching x1 y1) by (unfold x1, y1; destruct (ahollow a1); [exact M|apply matching_add; [exact M|reflexivity]]). rewrite (matching_hollow _ _ M1).
    destruct (forallb is_hollow a2); [injection H as <-; kept M1|]. destruct (ahollow x1); [discriminate|]. injection H as <-. more M1 (tuple_validator P (map (call P) a2)).
  - (* Tuple[T, ...] *) cbn in H |- *. oinv H. oinv Ha. injection Ha as <-. cbn in H. oinv H. oinv H. oinv H. rewrite Haa.
    destruct (same_matching d _ own own' pre pre' _ _ HO Ha Ha0) as (b1 & b2 & B1 & B2 & M). cbn. rewrite B1. cbn. rewrite B2. cbn. rewrite Ha1. cbn. rewrite (matching_hollow _ _ M).
    destruct (is_hollow a2); [injection H as <-; kept M|]. destruct (ahollow a1); [discriminate|]. injection H as <-. more M (iter_validator P RkPlain (call P a2)).
  - (* iterables *) cbn in H |- *. oinv H. oinv Ha. injection Ha as <-. cbn in H. oinv H. oinv H. oinv H. rewrite Haa.
    destruct (same_matching d _ own own' pre pre' _ _ HO Ha Ha0) as (b1 & b2 & B1 & B2 & M). cbn. rewrite B1. cbn. rewrite B2. cbn. rewrite Ha1. cbn. rewrite (matching_hollow _ _ M).
    destruct (is_hollow a2); [injection H as <-; kept M|]. destruct (ahollow a1); [discriminate|]. injection H as <-. more M (iter_validator P rk (call P a2)).
  - (* mappings *) cbn in H |- *. oinv H. oinv Ha. oinv Ha. injection Ha as <-. cbn in H. oinv H. oinv H. oinv H. oinv H. rewrite Haa. cbn. rewrite Haa0.
    destruct (same_matching d _ own own' pre pre' _ _ HO Ha Ha0) as (b1 & b2 & B1 & B2 & M). cbn. rewrite B1. cbn. rewrite B2. cbn. rewrite Ha1. cbn. rewrite Ha2. cbn. rewrite (matching_hollow _ _ M).
    destruct (is_hollow a3 && is_hollow a4); [injection H as <-; kept M|]. destruct (ahollow a2); [discriminate|]. injection H as <-. more M (map_validator P rk (call P a3) (call P a4)).
  - (* other generics *) cbn in H |- *. oinv H. oinv Ha. injection Ha as <-. cbn in H. oinv H. oinv H. oinv H. injection H as <-. rewrite Haa.
    destruct (same_matching d _ own own' pre pre' _ _ HO Ha Ha0) as (b1 & b2 & B1 & B2 & M). cbn. rewrite B1. cbn. rewrite B2. cbn. rewrite Ha1. cbn. kept M.
  - (* others *) assert (L : List.length pre' + List.length own' = List.length pre + List.length own) by (rewrite <- !app_length, HO; reflexivity).
    cbn in H |- *. destruct own; [|discriminate]. cbn in H. destruct pre; [|discriminate]. cbn in L. destruct own'; [|destruct pre'; discriminate L]. destruct pre'; [|discriminate L]. exists f. split; [exact H|]. split; reflexivity.
  - discriminate.
Qed.

Lemma member_made : forall ts h h' d, member_with ts h h' ->
  (forall f, made d [] ts h = Ok f -> exists g, made d [] [] h' = Ok g /\ alike f g) /\
  (forall g, made d [] [] h' = Ok g -> exists f, made d [] ts h = Ok f).
Proof.
  intros ts h h' d [h0 HA|h0 us HA HU]; unfold Mixed_main.made; cbn [gaf]; rewrite ?app_nil_r.
  - split.
    + intros f H. apply (moved h0 d [] ts ts [] f HA); [cbn; rewrite app_nil_r; reflexivity|intros _; cbn; rewrite app_nil_r; reflexivity|exact H].
    + intros g H. destruct (moved h0 d ts [] [] ts g HA) as (f & E & _); [cbn; rewrite app_nil_r; reflexivity|intros _; cbn; rewrite app_nil_r; reflexivity|exact H|]. exists f. exact E.
  - split.
    + intros f H. apply (moved h0 d us (ts ++ us) ts [] f HA); [reflexivity|congruence|exact H].
    + intros g H. destruct (moved h0 d (ts ++ us) us [] ts g HA) as (f & E & _); [reflexivity|congruence|exact H|]. exists f. exact E.
Qed.

Lemma members_made : forall ts hs hs' d, Forall2 (member_with ts) hs hs' ->
  (forall fs, all_made P d ts hs = Ok fs -> exists gs, all_made P d [] hs' = Ok gs /\ Forall2 alike fs gs) /\
  (forall gs, all_made P d [] hs' = Ok gs -> exists fs, all_made P d ts hs = Ok fs).
Proof.
  intros ts hs hs' d H. unfold all_made. induction H as [|h h' hs hs' HM _ [IH1 IH2]]; cbn [mapO].
  - split; intros fs E; cbn in *; [injection E as <-|]; eauto.
  - destruct (member_made ts h h' d HM) as [M1 M2]. unfold Mixed_main.made in *. split.
    + intros fs E. destruct (gaf P [] h) as [s|]; [|discriminate]. cbn in E, M1. destruct (mapO (gaf P []) hs) as [ss|]; [|discriminate]. cbn in E, IH1. oinv E. oinv E. injection E as <-.
      destruct (M1 _ Ea) as (g & E1 & A1). destruct (IH1 _ Ea0) as (gs & E2 & A2).
      destruct (gaf P [] h') as [s'|]; [|discriminate]. destruct (mapO (gaf P []) hs') as [ss'|]; [|discriminate]. cbn in *. rewrite E1. cbn. rewrite E2. cbn. eexists. split; [reflexivity|]. constructor; assumption.
    + intros gs E. destruct (gaf P [] h') as [s|]; [|discriminate]. cbn in E, M2. destruct (mapO (gaf P []) hs') as [ss|]; [|discriminate]. cbn in E, IH2. oinv E. oinv E. injection E as <-.
      destruct (M2 _ Ea) as (g & E1). destruct (IH2 _ Ea0) as (gs & E2).
      destruct (gaf P [] h) as [s'|]; [|discriminate]. destruct (mapO (gaf P []) hs) as [ss'|]; [|discriminate]. cbn in *. rewrite E1. cbn. rewrite E2. cbn. eexists. reflexivity.
Qed.

Lemma union_alike : forall args ap args' ap' b b' fs gs, Forall2 alike fs gs -> alike (FUnion args ap fs b) (FUnion args' ap' gs b').
Proof.
  intros args ap args' ap' b b' fs gs FA. destruct (alike_hollow _ _ _ FA) as [EH _]. split; [exact EH|]. intros x w. cbn [fill]. rewrite EH. destruct (forallb is_hollow fs); [reflexivity|].
  unfold bind. rewrite (union_ext _ _ (alike_fills _ _ _ FA)). reflexivity.
Qed.
End Members.

Lemma c171_members_proof : forall {obj ty W} (P : Py obj ty W) d ts hs hs' f, Forall2 (member_with ts) hs hs' ->
  make_filler P d (HAnn (HUnion hs) ts) [] = Ok f ->
  exists g, make_filler P d (HUnion hs') [] = Ok g /\ forall x w, call P g x w = call P f x w.
Proof.
  intros obj ty W P d ts hs hs' f HM H. unfold make_filler, get_filler, bind_filler in H. cbn in H. rewrite app_nil_r in H. oinv H. oinv Ha. injection Ha as <-. cbn in H. rewrite app_nil_r in H. oinv H. injection H as <-.
  destruct (proj1 (members_made P ts hs hs' d HM) a) as (gs & E & FA); [unfold all_made; rewrite Haa; exact Ha|].
  unfold all_made in E. unfold make_filler, get_filler, bind_filler. cbn. destruct (mapO (gaf P []) hs') as [ss|e]; [|discriminate]. cbn in E |- *. rewrite E. cbn. eexists. split; [reflexivity|].
  intros x w. exact (alike_call P _ _ (union_alike P ts [] [] [] true true a gs FA) x w).
Qed.

Lemma c171_refused_proof : forall {obj ty W} (P : Py obj ty W) d ts hs hs', Forall2 (member_with ts) hs hs' ->
  (exists e, make_filler P d (HAnn (HUnion hs) ts) [] = Raise e) <-> (exists e, make_filler P d (HUnion hs') [] = Raise e).
Proof.
  intros obj ty W P d ts hs hs' HM. destruct (members_made P ts hs hs' d HM) as [M1 M2]. unfold all_made, make_filler, get_filler, bind_filler in *. cbn. rewrite app_nil_r.
  destruct (mapO (gaf P []) hs) as [ss|e1], (mapO (gaf P []) hs') as [ss'|e2]; cbn in *; rewrite ?app_nil_r.
  - destruct (mapO (bind_with P d ts) ss) as [fs|e], (mapO (bind_with P d []) ss') as [gs|e']; cbn; split; intros (e0 & E); try discriminate; eauto.
    + destruct (M1 _ eq_refl) as (g & E' & _). discriminate.
    + destruct (M2 _ eq_refl) as (g & E'). discriminate.
  - destruct (mapO (bind_with P d ts) ss) as [fs|e]; cbn; split; intros (e0 & E); try discriminate; eauto. destruct (M1 _ eq_refl) as (g & E' & _). discriminate.
  - destruct (mapO (bind_with P d []) ss') as [gs|e]; cbn; split; intros (e0 & E); try discriminate; eauto. destruct (M2 _ eq_refl) as (g & E'). discriminate.
  - split; eauto.
Qed.

Lemma c171_behind_refuted_proof : exists (P : Py dobj dty demo_state) h us ts f g x y z w,
  make_filler P SCheck (HAnn (HUnion [HAnn h us]) ts) [] = Ok f /\ make_filler P SCheck (HUnion [HAnn (HAnn h us) ts]) [] = Ok g /\
  call P f x w = (Ok y, w) /\ call P g x w = (Ok z, w) /\ y <> z.
Proof.
  exists demo0, (HTy TInt), [always (DInt 1)], [always (DInt 2)]. do 2 eexists. exists DNone, (DInt 2), (DInt 1), st0.
  repeat (split; [reflexivity|]). discriminate.
Qed.

Lemma c171_nested_refuted_proof : exists (P : Py dobj dty demo_state) h us ts f g x y z w,
  make_filler P SCheck (HAnn (HUnion [HAnn (HUnion [h]) us]) ts) [] = Ok f /\ make_filler P SCheck (HUnion [HAnn (HUnion [h]) (ts ++ us)]) [] = Ok g /\
  call P f x w = (Ok y, w) /\ call P g x w = (Ok z, w) /\ y <> z.
Proof.
  exists demo0, (HTy TInt), [always (DInt 1)], [always (DInt 2)]. do 2 eexists. exists DNone, (DInt 1), (DInt 2), st0.
  repeat (split; [reflexivity|]). discriminate.
Qed.

Lemma c171_style_refuted_proof : exists (P : Py dobj dty demo_state) h f g x w e,
  make_filler P SHollow (HAnn (HUnion [HAnn (HUnion [h]) [TStyle SStrict]]) [TStyle SCheck]) [] = Ok f /\
  make_filler P SHollow (HAnn (HUnion [HAnn h [TStyle SStrict]]) [TStyle SCheck]) [] = Ok g /\
  call P f x w = (Ok x, w) /\ call P g x w = (Raise e, w).
Proof.
  exists demo0, (HTy TInt). do 2 eexists. exists (DBool true), st0. eexists. repeat (split; [reflexivity|]). reflexivity.
Qed.
