(** Widen_main.v -- proofs of the properties stated in Props_Widen.v: Further members of a Union (typing_fillers.py:19-88) *)

From Verif Require Import Base Py Filler Spec_Filler Demo.
From Verif Require Filler_proofs Filler_shape Filler_eqs Filler_main Names_main Groups_main.
Open Scope string_scope.
Open Scope list_scope.

Import Filler_proofs Filler_eqs Names_main Groups_main.
Section Widen.
Context {obj ty W : Type} (P : Py obj ty W).

Lemma wider_made : forall d toks l h r f g m,
  make_filler P d (HAnn (HUnion (l ++ h :: r)) toks) [] = Ok f -> make_filler P d (HAnn (HUnion (l ++ r)) toks) [] = Ok g ->
  make_filler P d h (own_only toks) = Ok m ->
  exists A B, f = FUnion toks [] (A ++ m :: B) true /\ g = FUnion toks [] (A ++ B) true /\
    forallb is_hollow (A ++ B) = hollow_hint d no_sub_tokens [] [] (HAnn (HUnion (l ++ r)) toks).
Proof.
  intros d toks l h r f g m HF HG HM. pose proof (Filler_shape.make_hollow P _ _ _ _ HG) as HH.
  rewrite union_made in HF, HG. change (h :: r) with ([h] ++ r) in HF. rewrite !mapO_app in HF, HG.
  cbn [app mapO] in HF. destruct (mapO (gaf P []) l) as [A|e]; [|cbn [obind] in HF; discriminate]. cbn [obind] in HF, HG.
  destruct (gaf P [] h) as [s|e] eqn:ES; [|cbn [obind] in HF; discriminate]. cbn [obind] in HF.
  destruct (mapO (gaf P []) r) as [B|e]; [|cbn [obind] in HF; discriminate]. cbn [obind] in HF, HG.
  rewrite !mapO_app in HF, HG. destruct (mapO (bind_with P d toks) A) as [A'|e]; [|cbn [obind] in HF; discriminate]. cbn [obind app mapO] in HF, HG.
  destruct (bind_with P d toks s) as [m'|e] eqn:EB; [|cbn [obind] in HF; discriminate]. cbn [obind] in HF.
  destruct (mapO (bind_with P d toks) B) as [B'|e]; [|cbn [obind] in HF; discriminate]. cbn [obind] in HF, HG.
  injection HF as <-. injection HG as <-.
  assert (make_filler P d h (own_only ([] ++ toks)) = Ok m') as M' by (eapply Filler_shape.part_make; [exact ES|reflexivity|exact EB]).
  change ([] ++ toks) with toks in M'. assert (m' = m) by congruence. subst m'. exists A', B'. split; [reflexivity|]. split; [reflexivity|]. exact HH.
Qed.

Lemma wider_calls : forall d toks l h r f g m,
  hollow_hint d no_sub_tokens [] [] (HAnn (HUnion (l ++ r)) toks) = false ->
  make_filler P d (HAnn (HUnion (l ++ h :: r)) toks) [] = Ok f -> make_filler P d (HAnn (HUnion (l ++ r)) toks) [] = Ok g ->
  make_filler P d h (own_only toks) = Ok m -> forall x w o, (forall w, exists k, fill P m x w = (k, w) /\ o w k) ->
  (forall w k, o w k -> forall e, k = Raise e -> is_Exception e = true) ->
  (exists oa ob k w1 w2, o w1 k /\ oa ++ ob <> [] /\ (forall e, In (Raise e) (oa ++ ob) -> is_Exception e = true) /\ call P g x w = lift (verdict P (oa ++ ob)) w2 /\ call P f x w = lift (verdict P (oa ++ k :: ob)) w2) \/
  (exists e w2, is_Exception e = false /\ call P g x w = (Raise e, w2) /\ call P f x w = (Raise e, w2)).
Proof.
  intros d toks l h r f g m HH HF HG HM x w o HO HE. destruct (wider_made d toks l h r f g m HF HG HM) as (A & B & -> & -> & EH).
  rewrite HH in EH. assert (NE : A ++ B <> []) by (intros E; rewrite E in EH; discriminate).
  assert (EF : forallb is_hollow (A ++ m :: B) = false).
  { rewrite forallb_app in EH |- *. cbn. destruct (forallb is_hollow A); [cbn in *; rewrite EH, andb_false_r; reflexivity|reflexivity]. }
  assert (CF : call P (FUnion toks [] (A ++ m :: B) true) x w = (let* os := attempts (map (fill P) (A ++ m :: B)) x in lift (verdict P os)) w).
  { rewrite plain_call by discriminate. cbn [fill]. rewrite EF. apply union_spec. destruct A; discriminate. }
  assert (CG : call P (FUnion toks [] (A ++ B) true) x w = (let* os := attempts (map (fill P) (A ++ B)) x in lift (verdict P os)) w).
  { rewrite plain_call by discriminate. cbn [fill]. rewrite EH. apply union_spec. intros E. apply map_eq_nil in E. contradiction. }
  rewrite CF, CG. clear CF CG. pose proof (fun os w' E => attempts_errors (map (fill P) (A ++ B)) x w os w' E) as AE. pose proof (fun os w' => attempts_length (map (fill P) (A ++ B)) x w os w') as AL.
  rewrite !map_app in *. cbn [map]. change (fill P m :: map (fill P) B) with ([fill P m] ++ map (fill P) B).
  unfold bind. rewrite !attempts_app in *. unfold bind in *.
  destruct (attempts (map (fill P) A) x w) as [[oa|e] w1] eqn:EA.
  2:{ right. exists e, w1. split; [eapply attempts_stop; exact EA|split; reflexivity]. }
  rewrite attempts_app. unfold bind. cbn [attempts]. destruct (HO w1) as (k & EK & OK). rewrite EK.
  destruct (attempts (map (fill P) B) x w1) as [[ob|e] w2] eqn:EB.
  - left. exists oa, ob, k, w1, w2. split; [exact OK|]. split; [|split; [|split; [reflexivity|]]].
    + intros E. specialize (AL _ _ eq_refl). rewrite E, app_length, !map_length, <- app_length in AL. destruct (A ++ B); [congruence|discriminate].
    + exact (AE _ _ eq_refl).
    + destruct k as [p|e]; [|rewrite (HE _ _ OK e eq_refl)]; cbn; unfold bind; cbn; rewrite EB; reflexivity.
  - right. exists e, w2. split; [eapply attempts_stop; exact EB|]. split; [reflexivity|].
    destruct k as [p|e']; [|rewrite (HE _ _ OK e' eq_refl)]; cbn; unfold bind; cbn; rewrite EB; reflexivity.
Qed.
End Widen.

(** a field of this kind refuses [x], and this has no effects *)
Definition refuses {obj ty W} (P : Py obj ty W) (m : filler) (x : obj) : Prop :=
  forall w, exists e, is_Exception e = true /\ call P m x w = (Raise e, w).
(** a field of this kind stores [x] as it is, and this has no effects *)
Definition keeps {obj ty W} (P : Py obj ty W) (m : filler) (x : obj) : Prop := forall w, call P m x w = (Ok x, w).

Lemma c169_refused_proof : forall {obj ty W} (P : Py obj ty W) d toks l h r f g m x w,
  hollow_hint d no_sub_tokens [] [] (HAnn (HUnion (l ++ r)) toks) = false ->
  make_filler P d (HAnn (HUnion (l ++ r)) toks) [] = Ok g -> make_filler P d h (own_only toks) = Ok m ->
  make_filler P d (HAnn (HUnion (l ++ h :: r)) toks) [] = Ok f -> refuses P m x ->
  (forall y w', call P g x w = (Ok y, w') <-> call P f x w = (Ok y, w')) /\ snd (call P g x w) = snd (call P f x w).
Proof.
  intros obj ty W P d toks l h r f g m x w HH HG HM HF HR.
  destruct (wider_calls P d toks l h r f g m HH HF HG HM x w (fun _ k => exists e, k = Raise e /\ is_Exception e = true)) as [(oa & ob & k & w1 & w2 & (e & -> & EX) & NE & AE & -> & ->)|(e & w2 & _ & -> & ->)].
  - intros w0. destruct (HR w0) as (e & EX & E). rewrite call_eq in E. unfold bind in E. destruct (fill P m x w0) as [[[v k]|e0] w'] eqn:EF; [discriminate|].
    injection E as -> ->. exists (Raise e). split; [reflexivity|]. exists e. auto.
  - intros w0 k (e & -> & EX) e' E. congruence.
  - split; [|reflexivity]. assert (SU : successes (oa ++ Raise e :: ob) = successes (oa ++ ob)).
    { unfold successes. rewrite !flat_map_app. reflexivity. }
    intros y w'. unfold verdict. rewrite SU. destruct (winners (successes (oa ++ ob))) as [|[v k] s] eqn:EW; [|reflexivity].
    assert (NO : forall os : list (outcome (obj * tpk)), os <> [] -> successes os = [] -> exists e', last os (Raise (mkexc LookupError "list index out of range")) = Raise e').
    { intros os N S. destruct (last os _) as [p|e'] eqn:EL; [|eauto]. exfalso. pose proof (last_In os (Raise (mkexc LookupError "list index out of range")) N) as I. rewrite EL in I.
      apply successes_in in I. rewrite S in I. destruct I. }
    apply winners_nil in EW. destruct (NO (oa ++ ob) NE EW) as (e1 & E1). rewrite E1.
    destruct (NO (oa ++ Raise e :: ob) ltac:(destruct oa; discriminate) ltac:(congruence)) as (e2 & E2). rewrite E2. split; discriminate.
  - split; [intros y w'; split; discriminate|reflexivity].
Qed.

Lemma c169_kept_proof : forall {obj ty W} (P : Py obj ty W) d toks l h r f g m x w w',
  hollow_hint d no_sub_tokens [] [] (HAnn (HUnion (l ++ r)) toks) = false ->
  make_filler P d (HAnn (HUnion (l ++ r)) toks) [] = Ok g -> make_filler P d h (own_only toks) = Ok m ->
  make_filler P d (HAnn (HUnion (l ++ h :: r)) toks) [] = Ok f -> keeps P m x ->
  call P g x w = (Ok x, w') -> call P f x w = (Ok x, w').
Proof.
  intros obj ty W P d toks l h r f g m x w w' HH HG HM HF HR HC.
  destruct (wider_calls P d toks l h r f g m HH HF HG HM x w (fun _ k => exists q, k = Ok (x, q))) as [(oa & ob & k & w1 & w2 & (q & ->) & NE & AE & CG & ->)|(e & w2 & _ & CG & _)].
  - intros w0. pose proof (HR w0) as E. rewrite call_eq in E. unfold bind in E. destruct (fill P m x w0) as [[[v k]|e0] w3] eqn:EF; [|discriminate].
    injection E as -> ->. exists (Ok (x, k)). split; [reflexivity|]. exists k. reflexivity.
  - intros w0 k (q & ->) e E. discriminate.
  - rewrite CG in HC. destruct (verdict P (oa ++ ob)) as [y|e] eqn:EV; [|discriminate]. cbn in HC. injection HC as -> ->.
    pose proof (proj1 (proj1 (Filler_main.c09_verdict_proof P (oa ++ ob)) x) EV) as (p & [HI HB] & HU).
    assert (HV : verdict P (oa ++ Ok (x, q) :: ob) = Ok x).
    { assert (IN : forall v' p', In (Ok (v', p')) (oa ++ Ok (x, q) :: ob) -> In (Ok (v', p')) (oa ++ ob) \/ (v' = x /\ p' = q)).
      { intros v' p' I. apply in_app_or in I. destruct I as [I|[I|I]]; [left; apply in_or_app; auto|right; injection I as -> ->; auto|left; apply in_or_app; auto]. }
      assert (NI : forall v' p', In (Ok (v', p')) (oa ++ ob) -> In (Ok (v', p')) (oa ++ Ok (x, q) :: ob)).
      { intros v' p' I. apply in_app_or in I. apply in_or_app. destruct I; [left|right; right]; assumption. }
      apply (proj2 (proj1 (Filler_main.c09_verdict_proof P (oa ++ Ok (x, q) :: ob)) x)).
      destruct (Nat.leb (tpk_rank p) (tpk_rank q)) eqn:EL; [apply Nat.leb_le in EL|apply Nat.leb_gt in EL].
      - exists p. split; [split|].
        + apply NI. exact HI.
        + intros v' p' I. destruct (IN _ _ I) as [I'|[-> ->]]; [eapply HB; exact I'|exact EL].
        + intros v' p' [I M]. destruct (IN _ _ I) as [I'|[-> ->]]; [|reflexivity]. apply (HU v' p'). split; [exact I'|]. intros v2 p2 I2. apply (M v2 p2). apply NI. exact I2.
      - exists q. split; [split|].
        + apply in_or_app. right. left. reflexivity.
        + intros v' p' I. destruct (IN _ _ I) as [I'|[-> ->]]; [apply HB in I'; lia|lia].
        + intros v' p' [I M]. destruct (IN _ _ I) as [I'|[-> ->]]; [|reflexivity]. apply HB in I'. specialize (M x q ltac:(apply in_or_app; right; left; reflexivity)). lia. }
    rewrite HV. reflexivity.
  - rewrite CG in HC. discriminate.
Qed.

Lemma c169_source_proof : forall {obj ty W} (P : Py obj ty W) d toks l h r f g m x w y w' o,
  hollow_hint d no_sub_tokens [] [] (HAnn (HUnion (l ++ r)) toks) = false ->
  make_filler P d (HAnn (HUnion (l ++ r)) toks) [] = Ok g -> make_filler P d h (own_only toks) = Ok m ->
  make_filler P d (HAnn (HUnion (l ++ h :: r)) toks) [] = Ok f -> (forall w, call P m x w = (o, w)) ->
  (forall e, o = Raise e -> is_Exception e = true) ->
  call P f x w = (Ok y, w') -> call P g x w = (Ok y, w') \/ call P m x w = (Ok y, w).
Proof.
  intros obj ty W P d toks l h r f g m x w y w' o HH HG HM HF HR HX HC.
  destruct (wider_calls P d toks l h r f g m HH HF HG HM x w (fun _ k => (exists z q, k = Ok (z, q) /\ o = Ok z) \/ exists e, k = Raise e /\ o = Raise e)) as [(oa & ob & k & w1 & w2 & OK & NE & AE & CG & CF)|(e & w2 & _ & _ & CF)].
  - intros w0. pose proof (HR w0) as E. rewrite call_eq in E. unfold bind in E. destruct (fill P m x w0) as [[[v k]|e0] w3] eqn:EF; injection E as E ->.
    + exists (Ok (v, k)). split; [reflexivity|]. left. exists v, k. auto.
    + exists (Raise e0). split; [reflexivity|]. right. exists e0. auto.
  - intros w0 k [(z & q & -> & _)|(e0 & -> & E0)] e E; [discriminate|]. apply HX. congruence.
  - rewrite CF in HC. destruct (verdict P (oa ++ k :: ob)) as [z|e] eqn:EV; [|discriminate]. cbn in HC. injection HC as -> ->.
    pose proof (proj1 (proj1 (Filler_main.c09_verdict_proof P (oa ++ k :: ob)) y) EV) as (p & [HI HB] & HU).
    assert (NI : forall v' p', In (Ok (v', p')) (oa ++ ob) -> In (Ok (v', p')) (oa ++ k :: ob)).
    { intros v' p' I. apply in_app_or in I. apply in_or_app. destruct I; [left|right; right]; assumption. }
    assert (C : In (Ok (y, p)) (oa ++ ob) \/ k = Ok (y, p)).
    { apply in_app_or in HI. destruct HI as [I|[I|I]]; [left; apply in_or_app; auto|right; exact I|left; apply in_or_app; auto]. }
    destruct C as [C|C].
    + left. rewrite CG. replace (verdict P (oa ++ ob)) with (Ok y : outcome obj); [reflexivity|]. symmetry.
      apply (proj2 (proj1 (Filler_main.c09_verdict_proof P (oa ++ ob)) y)). exists p. split; [split; [exact C|]|].
      * intros v' p' I. eapply HB. apply NI. exact I.
      * intros v' p' [I M]. apply (HU v' p'). split; [apply NI; exact I|]. intros v2 p2 I2. specialize (M _ _ C). specialize (HB _ _ I2). lia.
    + right. destruct OK as [(z & q & E & EO)|(e & E & _)]; [|congruence]. rewrite HR. congruence.
  - rewrite CF in HC. discriminate.
Qed.

Lemma c169_one_proof : forall {obj ty W} (P : Py obj ty W) d toks h f g x w,
  hollow_hint d no_sub_tokens [] [] (HAnn (HUnion [h]) toks) = false ->
  make_filler P d (HAnn (HUnion [h]) toks) [] = Ok f -> make_filler P d h (own_only toks) = Ok g ->
  call P f x w = call P g x w.
Proof.
  intros obj ty W P d toks h f g x w HH HF HG. pose proof (Filler_shape.make_hollow P _ _ _ _ HF) as MH. rewrite union_made in HF. cbn [mapO] in HF.
  destruct (gaf P [] h) as [s|e] eqn:ES; [|discriminate]. cbn [obind mapO] in HF. destruct (bind_with P d toks s) as [m'|e] eqn:EB; [|discriminate]. cbn [obind] in HF. injection HF as <-.
  assert (make_filler P d h (own_only ([] ++ toks)) = Ok m') as M' by (eapply Filler_shape.part_make; [exact ES|reflexivity|exact EB]).
  change ([] ++ toks) with toks in M'. assert (m' = g) by congruence. subst m'. change (hollow_hint d no_sub_tokens [] [] (HAnn (HUnion [h]) toks)) with (hollow_hint d no_sub_tokens [] [] (HAnn (HUnion [h]) toks)) in MH.
  assert (EH : forallb is_hollow [g] = false) by (rewrite <- HH; exact MH).
  rewrite plain_call by discriminate. cbn [fill]. rewrite EH. change (map (fill P) [g]) with [fill P g]. rewrite (union_spec P [fill P g] x w ltac:(discriminate)). rewrite call_eq. unfold bind. cbn [attempts].
  destruct (fill P g x w) as [[[v k]|e] w1]; cbn; [destruct k; reflexivity|]. destruct (is_Exception e); reflexivity.
Qed.

Lemma c169_converted_refuted_proof : exists t u f g m x y w,
  make_filler demo0 SCheck t [] = Ok g /\ make_filler demo0 SCheck u [] = Ok m /\ make_filler demo0 SCheck (HUnion [t; u]) [] = Ok f /\
  keeps demo0 m x /\ call demo0 g x w = (Ok y, w) /\ call demo0 f x w = (Ok x, w) /\ x <> y.
Proof.
  exists (HAnn (HTy TInt) [gives (DStr "5") (DInt 5)]), (HTy TStr). do 3 eexists. exists (DStr "5"), (DInt 5), st0. repeat split. discriminate.
Qed.

Lemma c169_ambiguous_refuted_proof : exists t u f g m x y z w e,
  make_filler demo0 SCheck t [] = Ok g /\ make_filler demo0 SCheck u [] = Ok m /\ make_filler demo0 SCheck (HUnion [t; u]) [] = Ok f /\
  call demo0 g x w = (Ok y, w) /\ call demo0 m x w = (Ok z, w) /\ call demo0 f x w = (Raise e, w).
Proof.
  exists (HAnn (HTy TInt) [gives (DStr "1") (DInt 1)]), (HAnn (HTy TBool) [gives (DStr "1") (DBool true)]). do 3 eexists. exists (DStr "1"), (DInt 1), (DBool true), st0. eexists. repeat split.
Qed.
