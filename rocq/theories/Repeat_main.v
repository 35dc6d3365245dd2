(** Repeat_main.v -- proofs of the properties stated in Props_Repeat.v: annotations that say something twice (records/fillers/filler.py:162-238) *)

From Verif Require Import Base Py Select Filler Spec_Filler Classes Spec_Classes Runtime Record Spec_Record Spec_Settle Spec_Wider Spec_Mixed Spec_Repeat Demo DemoRt DemoCls.
From Verif Require Import Wider_main Mixed_main.
From Verif Require Record_proofs Dict_proofs Filler_proofs Filler_shape Filler_eqs Filler_main.
Open Scope string_scope.
Open Scope list_scope.

Import Filler_proofs Filler_shape Filler_eqs Wider_main.

Scheme abridged_mut := Induction for abridged Sort Prop
with all_abridged_mut := Induction for all_abridged Sort Prop.
Combined Scheme abridged_both from abridged_mut, all_abridged_mut.

Section Repeat.
Context {obj ty W : Type} (P : Py obj ty W).
Notation token := (@token obj ty W).
Notation hint := (@hint obj ty W).
Notation filler := (@filler obj ty W).
Notation callback := (@callback obj W).
Notation akind := (@akind obj ty).
Notation alike := (Mixed_main.alike P).
Notation alike_call := (Mixed_main.alike_call P).
Notation alike_calls := (Mixed_main.alike_calls P).
Notation alike_fills := (Mixed_main.alike_fills P).
Notation alike_hollow := (Mixed_main.alike_hollow P).
Notation hollow_parts := (Mixed_main.hollow_parts P).
Notation made := (Mixed_main.made P).
Notation all_made := (Mixed_main.all_made P).
Notation iter_ext := (Mixed_main.iter_ext P).
Notation tuple_ext := (Mixed_main.tuple_ext P).
Notation map_ext2 := (Mixed_main.map_ext2 P).

Lemma repeated_empty : forall ts us, repeated P ts us -> match ts, us with [], [] => True | _ :: _, _ :: _ => True | _, _ => False end.
Proof.
  intros ts us H. induction H as [l|t l l' _ IH|t l _|s s' l|t u l _|l l' _ IH|l1 l2 l3 _ I1 _ I2]; try exact I.
  - destruct l; exact I.
  - destruct l, l'; auto.
  - destruct l1, l2, l3; auto; contradiction.
Qed.

Lemma repeated_app : forall a a' b b' : list token, repeated P a a' -> repeated P b b' -> repeated P (a ++ b) (a' ++ b').
Proof.
  intros a a' b b' HA HB. apply rp_again with (a ++ b').
  - clear HA. induction a as [|t r IH]; [exact HB|]. apply rp_behind. exact IH.
  - clear HB. induction HA as [l|t l l' H IH|t l H|s s' l|t u l H|l l' H IH|l1 l2 l3 _ I1 _ I2]; cbn;
      [constructor|constructor; exact IH|apply rp_twice; exact H|apply rp_styles|apply rp_swap; exact H|apply rp_sym; exact IH|eapply rp_again; eassumption].
Qed.

(** the same for lists of callables *)
Inductive crep : list callback -> list callback -> Prop :=
| cr_same : forall l, crep l l
| cr_behind : forall f l l', crep l l' -> crep (f :: l) (f :: l')
| cr_twice : forall f l, keeps_results f -> keeps_refusing f -> crep (f :: f :: l) (f :: l)
| cr_sym : forall l l', crep l l' -> crep l' l
| cr_again : forall l1 l2 l3, crep l1 l2 -> crep l2 l3 -> crep l1 l3.

Lemma crep_empty : forall cs ds, crep cs ds -> match cs, ds with [], [] => True | _ :: _, _ :: _ => True | _, _ => False end.
Proof.
  intros cs ds H. induction H as [l|f l l' _ IH|f l _ _|l l' _ IH|l1 l2 l3 _ I1 _ I2]; try exact I.
  - destruct l; exact I.
  - destruct l, l'; auto.
  - destruct l1, l2, l3; auto; contradiction.
Qed.

Lemma crep_run : forall k s cs ds, crep cs ds -> forall x w, run_coercers P k s ds x w = run_coercers P k s cs x w.
Proof.
  intros k s cs ds H. induction H as [l|f l l' H IH|f l HK HR|l l' _ IH|l1 l2 l3 _ I1 _ I2]; intros x w.
  - reflexivity.
  - cbn. pose proof (crep_empty _ _ H) as E. assert (L : match l' with [] => true | _ => false end = match l with [] => true | _ => false end) by (destruct l, l'; auto; contradiction).
    rewrite L. destruct (f x w) as [[y|e] w1]; rewrite IH; reflexivity.
  - cbn [run_coercers]. destruct (f x w) as [[y|e] w1] eqn:E.
    + destruct (coerced_ok s (type_check P k y w1)) eqn:EC; [reflexivity|]. cbn [negb]. rewrite (HK _ _ _ _ E), EC. reflexivity.
    + destruct (is_Exception e) eqn:EE; [|reflexivity]. cbn [negb andb]. rewrite (HR _ _ _ _ E), EE. reflexivity.
  - symmetry. apply IH.
  - rewrite I2. apply I1.
Qed.

Definition both {A} (Q : A -> A -> Prop) (x y : outcome A) : Prop :=
  match x, y with Ok a, Ok b => Q a b | Raise _, Raise _ => True | _, _ => False end.
Lemma both_refl : forall {A} (Q : A -> A -> Prop) x, (forall a, Q a a) -> both Q x x.
Proof. intros A Q [a|e] H; cbn; auto. Qed.

Lemma repeated_coercers : forall (k : akind) ts us, repeated P ts us -> both crep (tok_coercers P k ts) (tok_coercers P k us).
Proof.
  intros k ts us H. induction H as [l|t l l' _ IH|t l H|s s' l|t u l H|l l' _ IH|l1 l2 l3 _ I1 _ I2].
  - apply both_refl. constructor.
  - destruct t; cbn; try exact IH. destruct (get_coercer P k c) as [f|e]; cbn; [|exact I].
    destruct (tok_coercers P k l), (tok_coercers P k l'); cbn in *; auto. constructor. exact IH.
  - destruct t; cbn in *; try (apply both_refl; constructor). specialize (H k). destruct (get_coercer P k c) as [f|e]; cbn; [|exact I].
    destruct (tok_coercers P k l); cbn; [|exact I]. destruct (H f eq_refl). apply cr_twice; assumption.
  - apply both_refl. constructor.
  - destruct t, u; cbn in *; try contradiction; apply both_refl; constructor.
  - destruct (tok_coercers P k l), (tok_coercers P k l'); cbn in *; auto. apply cr_sym. exact IH.
  - destruct (tok_coercers P k l1), (tok_coercers P k l2), (tok_coercers P k l3); cbn in *; auto; try contradiction. eapply cr_again; eassumption.
Qed.

Definition same_run (vs us : list callback) : Prop := forall x w, run_validators us x w = run_validators vs x w.
Lemma same_run_app : forall vs us f g, same_run vs us -> (forall x w, g x w = f x w) -> same_run (vs ++ [f]) (us ++ [g]).
Proof.
  intros vs us f g H E x w. assert (A : forall l (h : callback) x w, run_validators (l ++ [h]) x w = bind (run_validators l x) h w).
  { clear. induction l as [|v r IH]; intros h x w; cbn.
    - unfold bind, ret. destruct (h x w) as [[y|e] w1]; reflexivity.
    - unfold bind. destruct (v x w) as [[y|e] w1]; [|reflexivity]. rewrite IH. reflexivity. }
  rewrite !A. unfold bind. rewrite H. destruct (run_validators vs x w) as [[y|e] w1]; [apply E|reflexivity].
Qed.
Lemma same_run_more : forall more vs us, same_run vs us -> same_run (vs ++ more) (us ++ more).
Proof.
  induction more as [|f r IH]; intros vs us H; [rewrite !app_nil_r; exact H|].
  change (f :: r) with ([f] ++ r). rewrite !app_assoc. apply IH. apply same_run_app; [exact H|reflexivity].
Qed.

Lemma repeated_validators : forall (k : akind) ts us, repeated P ts us -> both same_run (tok_validators P k ts) (tok_validators P k us).
Proof.
  intros k ts us H. induction H as [l|t l l' _ IH|t l H|s s' l|t u l H|l l' _ IH|l1 l2 l3 _ I1 _ I2].
  - apply both_refl. intros a x w. reflexivity.
  - destruct t; cbn; try exact IH. destruct (get_validator P k v) as [f|e]; cbn; [|exact I].
    destruct (tok_validators P k l), (tok_validators P k l'); cbn in *; auto. intros x w. cbn. unfold bind. destruct (f x w) as [[y|e] w1]; [apply IH|reflexivity].
  - destruct t; cbn in *; try (apply both_refl; intros ? ? ?; reflexivity). specialize (H k). destruct (get_validator P k v) as [f|e]; cbn; [|exact I].
    destruct (tok_validators P k l); cbn; [|exact I]. intros x w. cbn. unfold bind. destruct (f x w) as [[y|e] w1] eqn:E; [|reflexivity]. rewrite (H f eq_refl _ _ _ _ E). reflexivity.
  - apply both_refl. intros a x w. reflexivity.
  - destruct t, u; cbn in *; try contradiction; apply both_refl; intros ? ? ?; reflexivity.
  - destruct (tok_validators P k l), (tok_validators P k l'); cbn in *; auto. intros x w. symmetry. apply IH.
  - destruct (tok_validators P k l1), (tok_validators P k l2), (tok_validators P k l3); cbn in *; auto; try contradiction. intros x w. rewrite I2. apply I1.
Qed.

Lemma repeated_fold : forall ts us, repeated P ts us -> forall a : style, fold_left (fun acc (t : token) => match t with TStyle s => s | _ => acc end) us a =
  fold_left (fun acc (t : token) => match t with TStyle s => s | _ => acc end) ts a.
Proof.
  intros ts us H. induction H as [l|t l l' _ IH|t l H|s s' l|t u l H|l l' _ IH|l1 l2 l3 _ I1 _ I2]; intros a; cbn; try reflexivity; auto.
  - destruct t; reflexivity.
  - destruct t, u; cbn in H; try contradiction; reflexivity.
  - rewrite I2. apply I1.
Qed.
Lemma repeated_style : forall d ts us, repeated P ts us -> eff_style d us = eff_style d ts.
Proof. intros d ts us H. unfold eff_style, last_style. rewrite (repeated_fold ts us H). reflexivity. Qed.

Lemma crep_phase : forall k s cs ds, crep cs ds -> forall x w, type_phase P k s ds x w = type_phase P k s cs x w.
Proof.
  intros k s cs ds C x w. unfold type_phase. pose proof (crep_empty _ _ C) as E.
  assert (B : match ds with [] => raise (mkexc TypeError "failed type checking") | _ => let* y := run_coercers P k s ds x in ret (y, PCoerce) end w =
    match cs with [] => raise (mkexc TypeError "failed type checking") | _ => let* y := run_coercers P k s cs x in ret (y, PCoerce) end w).
  { pose proof (crep_run k s _ _ C x w) as X. destruct cs, ds; try contradiction; [reflexivity|]. unfold bind. rewrite X. reflexivity. }
  rewrite B. reflexivity.
Qed.

Definition matching (a b : @afiller obj ty W) : Prop :=
  a_kind b = a_kind a /\ a_style b = a_style a /\ crep (a_coercers a) (a_coercers b) /\ same_run (a_validators a) (a_validators b).

Lemma matching_fill : forall a b, matching a b -> forall x w, afill P b x w = afill P a x w.
Proof.
  intros a b (K & S & C & V) x w. unfold afill. rewrite K, S.
  pose proof (crep_phase (a_kind a) (a_style a) _ _ C x w) as T.
  unfold bind. rewrite T. destruct (type_phase P (a_kind a) (a_style a) (a_coercers a) x w) as [[p|e] w1]; [|reflexivity].
  rewrite V. reflexivity.
Qed.
Lemma matching_add : forall a b f g, matching a b -> (forall x w, g x w = f x w) -> matching (add_validator a f) (add_validator b g).
Proof.
  intros a b f g (K & S & C & V) E. repeat split; cbn; try assumption. apply same_run_app; assumption.
Qed.
Lemma matching_hollow : forall a b, matching a b -> ahollow b = ahollow a.
Proof. intros a b (_ & S & _). unfold ahollow. rewrite S. reflexivity. Qed.

Lemma bound_matching : forall d (k : akind) own own' pre pre' a1 a2, repeated P own own' -> repeated P pre pre' ->
  aapplys P (mk_afiller k own) pre = Ok a1 -> abind P d a1 = Ok a2 ->
  exists b1 b2, aapplys P (mk_afiller k own') pre' = Ok b1 /\ abind P d b1 = Ok b2 /\ matching a2 b2.
Proof.
  intros d k own own' pre pre' a1 a2 HO HP H1 H2. destruct (bound_afiller P d pre k own a1 a2 H1 H2) as (cs & vs & HC & HV & E & HH & HS).
  pose proof (repeated_app _ _ _ _ HP HO) as HR. pose proof (repeated_style d _ _ HR) as ES.
  pose proof (repeated_coercers k _ _ HR) as KC. pose proof (repeated_validators k _ _ HR) as KV. rewrite HC in KC. rewrite HV in KV.
  destruct (tok_coercers P k (pre' ++ own')) as [cs'|] eqn:HC'; [|contradiction]. destruct (tok_validators P k (pre' ++ own')) as [vs'|] eqn:HV'; [|contradiction]. cbn in KC, KV.
  pose proof (bound_fwd P d pre' k own' cs' vs' HC' HV') as B. cbv zeta in B. rewrite ES in B.
  assert (N1 : style_eqb (eff_style d (pre ++ own)) SHollow && negb (match cs' with [] => true | _ => false end) = false).
  { destruct (style_eqb_spec (eff_style d (pre ++ own)) SHollow) as [X|]; [|reflexivity]. apply HH in X. subst cs. apply crep_empty in KC. destruct cs'; [reflexivity|contradiction]. }
  assert (N2 : style_eqb (eff_style d (pre ++ own)) SStrict && kind_abstract P k = false).
  { destruct (style_eqb_spec (eff_style d (pre ++ own)) SStrict) as [X|]; [|reflexivity]. rewrite (HS X). reflexivity. }
  rewrite N1, N2 in B. set (s := eff_style d (pre ++ own)) in *.
  assert (B' : (do b1 <- aapplys P (mk_afiller k own') pre'; abind P d b1) = Ok (AF k own' s cs' (vs' ++ lit_validators P k s) true)) by (destruct k; exact B).
  destruct (aapplys P (mk_afiller k own') pre') as [b1|e]; [|discriminate]. cbn in B'. exists b1. eexists. split; [reflexivity|]. split; [exact B'|].
  rewrite E. repeat split; cbn; [exact KC|]. apply same_run_more. exact KV.
Qed.

Lemma abridged_made :
  (forall h h', abridged P h h' -> forall args args' pre pre' d f, repeated P args args' -> repeated P pre pre' ->
     made d args pre h = Ok f -> exists g, made d args' pre' h' = Ok g /\ alike f g) /\
  (forall hs hs', all_abridged P hs hs' -> forall pre pre' d fs, repeated P pre pre' ->
     all_made d pre hs = Ok fs -> exists gs, all_made d pre' hs' = Ok gs /\ Forall2 alike fs gs).
Proof.
  apply (abridged_both _ _ _ P); unfold made, all_made.
  - (* simple *)
    intros h HS args args' pre pre' d f HA HP H.
    assert (LEAF : forall k, (do s <- Ok (FAnn (mk_afiller k args)); bind_with P d pre s) = Ok f -> exists g, (do s <- Ok (FAnn (mk_afiller k args')); bind_with P d pre' s) = Ok g /\ alike f g).
    { intros k E. cbn in E |- *. oinv E. oinv E. injection E as <-. destruct (bound_matching d k args args' pre pre' _ _ HA HP Ea Ea0) as (b1 & b2 & -> & B2 & M). cbn. rewrite B2. cbn.
      eexists. split; [reflexivity|]. split; [cbn; apply matching_hollow; exact M|]. intros x w. cbn. apply matching_fill. exact M. }
    assert (DUMB : (do s <- dumb args; bind_with P d pre s) = Ok f -> exists g, (do s <- dumb args'; bind_with P d pre' s) = Ok g /\ alike f g).
    { intros E. pose proof (repeated_empty _ _ HA) as LA. pose proof (repeated_empty _ _ HP) as LP.
      destruct args as [|]; [|discriminate]. destruct args' as [|]; [|contradiction]. cbn in E |- *. destruct pre as [|]; [|discriminate]. destruct pre' as [|]; [|contradiction].
      exists f. split; [exact E|]. split; reflexivity. }
    destruct h; try discriminate; try (apply LEAF; exact H); try (apply DUMB; exact H).
    (* Type *)
    cbn in H |- *. oinv H. oinv H. injection H as <-. destruct (bound_matching d _ args args' pre pre' _ _ HA HP Ha Ha0) as (b1 & b2 & -> & B2 & M). cbn. rewrite B2. cbn.
    eexists. split; [reflexivity|]. rewrite (matching_hollow _ _ M). destruct (ahollow a0) eqn:EH.
    + split; [cbn; apply matching_hollow; exact M|]. intros x w. cbn. apply matching_fill. exact M.
    + assert (M2 := matching_add _ _ (type_validator P base) (type_validator P base) M (fun x w => eq_refl)).
      split; [cbn; apply matching_hollow in M2; exact M2|]. intros x w. cbn. apply matching_fill. exact M2.
  - (* Annotated *)
    intros h h' ts us HT _ IH args args' pre pre' d f HA HP H. cbn in *. apply (IH (ts ++ args) (us ++ args') pre pre' d f); [apply repeated_app; assumption|exact HP|exact H].
  - (* NewType *)
    intros h h' HR IH args args' pre pre' d f HA HP H. pose proof (repeated_empty _ _ HA) as LA. pose proof (repeated_empty _ _ HP) as LP.
    destruct HR; try (apply (IH args args' pre pre' d f HA HP); exact H).
    + cbn in H |- *. destruct h; try discriminate; exact (IH args args' pre pre' d f HA HP H).
    + cbn in H |- *. destruct args as [|]; [|discriminate]. destruct args' as [|]; [|contradiction]. cbn in H |- *.
      destruct pre as [|]; [|discriminate]. destruct pre' as [|]; [|contradiction]. exists f. split; [exact H|]. split; reflexivity.
  - (* Union *)
    intros hs hs' HR IH args args' pre pre' d f HA HP H. cbn in *. oinv H. oinv Ha. injection Ha as <-. cbn in H. oinv H. injection H as <-.
    destruct (IH (args ++ pre) (args' ++ pre') d a) as (gs & E & FA); [apply repeated_app; assumption|rewrite Haa; cbn; exact Ha|].
    destruct (mapO (gaf P []) hs') as [ss|e]; [|discriminate]. cbn in E |- *. rewrite E. cbn. eexists. split; [reflexivity|].
    destruct (alike_hollow _ _ FA) as [EH _]. split; [exact EH|]. intros x w. cbn [fill]. rewrite EH. destruct (forallb is_hollow a); [reflexivity|].
    unfold bind. rewrite (union_ext _ _ (alike_fills _ _ FA)). reflexivity.
  - (* Tuple[T1, ..., Tn] *)
    intros hs hs' HR IH args args' pre pre' d f HA HP H. cbn in H |- *. oinv H. oinv Ha. injection Ha as <-. cbn in H. oinv H. oinv H. oinv H.
    destruct (bound_matching d _ args args' pre pre' _ _ HA HP Ha Ha0) as (b1 & b2 & B1 & B2 & M).
    destruct (IH [] [] d a2) as (gs & E & FA); [constructor|rewrite Haa; exact Ha1|].
    destruct (mapO (gaf P []) hs') as [ss|e] eqn:ES; [|discriminate]. cbn in E |- *. rewrite B1. cbn. rewrite B2. cbn. rewrite E. cbn.
    destruct (alike_hollow _ _ FA) as [EH EL]. rewrite EH, (matching_hollow _ _ M).
    assert (LEN : List.length ss = List.length a0) by (rewrite <- (mapO_length _ _ _ E), <- (mapO_length _ _ _ Ha1); exact EL).
    rewrite LEN. set (x1 := if ahollow a1 then a1 else add_validator a1 (len_validator P (List.length a0))) in *.
    set (y1 := if ahollow a1 then b2 else add_validator b2 (len_validator P (List.length a0))) in *.
    assert (M1 : matching x1 y1) by (unfold x1, y1; destruct (ahollow a1); [exact M|apply matching_add; [exact M|reflexivity]]).
    rewrite (matching_hollow _ _ M1).
    destruct (forallb is_hollow a2); [|destruct (ahollow x1); [discriminate|]]; injection H as <-; (eexists; split; [reflexivity|]).
    + split; [cbn; apply matching_hollow; exact M1|]. intros x w. cbn. apply matching_fill. exact M1.
    + assert (M2 := matching_add _ _ _ _ M1 (tuple_ext _ _ (alike_calls _ _ FA))). split; [cbn; apply matching_hollow in M2; exact M2|]. intros x w. cbn. apply matching_fill. exact M2.
  - (* other generics *)
    intros t hs hs' HR IH args args' pre pre' d f HA HP H. cbn in H |- *. oinv H. oinv Ha. injection Ha as <-. cbn in H. oinv H. oinv H. oinv H. injection H as <-.
    destruct (bound_matching d _ args args' pre pre' _ _ HA HP Ha Ha0) as (b1 & b2 & B1 & B2 & M).
    apply hollow_parts in Ha1. destruct Ha1 as [Ha1 HH].
    destruct (IH [] [] d a2) as (gs & E & FA); [constructor|rewrite Haa; exact Ha1|].
    destruct (alike_hollow _ _ FA) as [EH _]. rewrite HH in EH.
    destruct (mapO (gaf P []) hs') as [ss|e] eqn:ES; [|discriminate]. cbn in E |- *. rewrite B1. cbn. rewrite B2. cbn.
    rewrite (proj2 (hollow_parts d ss gs) (conj E EH)). cbn. eexists. split; [reflexivity|].
    split; [cbn; apply matching_hollow; exact M|]. intros x w. cbn. apply matching_fill. exact M.
  - (* Tuple[T, ...] *)
    intros h h' HR IH args args' pre pre' d f HA HP H. cbn in H |- *. oinv H. oinv Ha. injection Ha as <-. cbn in H. oinv H. oinv H. oinv H.
    destruct (bound_matching d _ args args' pre pre' _ _ HA HP Ha Ha0) as (b1 & b2 & B1 & B2 & M).
    destruct (IH [] [] [] [] d a2) as (g & E & EA); [constructor|constructor|rewrite Haa; exact Ha1|].
    pose proof (alike_call _ _ EA) as EC. destruct EA as [EH _].
    destruct (gaf P [] h') as [s|e] eqn:ES; [|discriminate]. cbn in E |- *. rewrite B1. cbn. rewrite B2. cbn. rewrite E. cbn. rewrite EH, (matching_hollow _ _ M).
    destruct (is_hollow a2); [|destruct (ahollow a1); [discriminate|]]; injection H as <-; (eexists; split; [reflexivity|]).
    + split; [cbn; apply matching_hollow; exact M|]. intros x w. cbn. apply matching_fill. exact M.
    + assert (M2 := matching_add _ _ _ _ M (iter_ext RkPlain _ _ EC)). split; [cbn; apply matching_hollow in M2; exact M2|]. intros x w. cbn. apply matching_fill. exact M2.
  - (* iterables *)
    intros rk t h h' HR IH args args' pre pre' d f HA HP H. cbn in H |- *. oinv H. oinv Ha. injection Ha as <-. cbn in H. oinv H. oinv H. oinv H.
    destruct (bound_matching d _ args args' pre pre' _ _ HA HP Ha Ha0) as (b1 & b2 & B1 & B2 & M).
    destruct (IH [] [] [] [] d a2) as (g & E & EA); [constructor|constructor|rewrite Haa; exact Ha1|].
    pose proof (alike_call _ _ EA) as EC. destruct EA as [EH _].
    destruct (gaf P [] h') as [s|e] eqn:ES; [|discriminate]. cbn in E |- *. rewrite B1. cbn. rewrite B2. cbn. rewrite E. cbn. rewrite EH, (matching_hollow _ _ M).
    destruct (is_hollow a2); [|destruct (ahollow a1); [discriminate|]]; injection H as <-; (eexists; split; [reflexivity|]).
    + split; [cbn; apply matching_hollow; exact M|]. intros x w. cbn. apply matching_fill. exact M.
    + assert (M2 := matching_add _ _ _ _ M (iter_ext rk _ _ EC)). split; [cbn; apply matching_hollow in M2; exact M2|]. intros x w. cbn. apply matching_fill. exact M2.
  - (* mappings *)
    intros rk t hk hk' hv hv' HRk IHk HRv IHv args args' pre pre' d f HA HP H. cbn in H |- *. oinv H. oinv Ha. oinv Ha. injection Ha as <-. cbn in H. oinv H. oinv H. oinv H. oinv H.
    destruct (bound_matching d _ args args' pre pre' _ _ HA HP Ha Ha0) as (b1 & b2 & B1 & B2 & M).
    destruct (IHk [] [] [] [] d a3) as (gk & E & EA); [constructor|constructor|rewrite Haa; exact Ha1|].
    destruct (IHv [] [] [] [] d a4) as (gv & E' & EA'); [constructor|constructor|rewrite Haa0; exact Ha2|].
    pose proof (alike_call _ _ EA) as EC. destruct EA as [EH _]. pose proof (alike_call _ _ EA') as EC'. destruct EA' as [EH' _].
    destruct (gaf P [] hk') as [sk|e]; [|discriminate]. destruct (gaf P [] hv') as [sv|e]; [|discriminate]. cbn in E, E' |- *. rewrite B1. cbn. rewrite B2. cbn. rewrite E. cbn. rewrite E'. cbn.
    rewrite EH, EH', (matching_hollow _ _ M).
    destruct (is_hollow a3 && is_hollow a4); [|destruct (ahollow a2); [discriminate|]]; injection H as <-; (eexists; split; [reflexivity|]).
    + split; [cbn; apply matching_hollow; exact M|]. intros x w. cbn. apply matching_fill. exact M.
    + assert (M2 := matching_add _ _ _ _ M (map_ext2 rk _ _ _ _ EC EC')). split; [cbn; apply matching_hollow in M2; exact M2|]. intros x w. cbn. apply matching_fill. exact M2.
  - intros pre pre' d fs HP H. cbn in *. injection H as <-. exists []. split; [reflexivity|constructor].
  - intros h h' hs hs' _ IH _ IHs pre pre' d fs HP H. cbn in H |- *. destruct (gaf P [] h) as [s|e] eqn:E1; [|discriminate]. cbn in H. destruct (mapO (gaf P []) hs) as [ss|e] eqn:E2; [|discriminate]. cbn in H.
    oinv H. oinv H. injection H as <-.
    destruct (IH [] [] pre pre' d a) as (g & G1 & G2); [constructor|exact HP|rewrite E1; exact Ha|].
    destruct (IHs pre pre' d a0) as (gs & G3 & G4); [exact HP|exact Ha0|].
    destruct (gaf P [] h') as [s'|e]; [|discriminate]. destruct (mapO (gaf P []) hs') as [ss'|e]; [|discriminate]. cbn in G1, G3 |- *. rewrite G1. cbn. rewrite G3. cbn.
    eexists. split; [reflexivity|]. constructor; assumption.
Qed.


Lemma abridged_sym : (forall h h' : hint, abridged P h h' -> abridged P h' h) /\ (forall hs hs' : list hint, all_abridged P hs hs' -> all_abridged P hs' hs).
Proof. apply (abridged_both _ _ _ P); intros; constructor; auto using rp_sym. Qed.

Lemma abridged_fill : forall d h h' toks toks' f, abridged P h h' -> repeated P toks toks' -> make_filler P d h (own_only toks) = Ok f ->
  exists g, make_filler P d h' (own_only toks') = Ok g /\ alike f g.
Proof.
  intros d h h' toks toks' f HR HM H. unfold make_filler, get_filler, bind_filler in H. oinv H. rewrite apply_ops_own_only in H. oinv H.
  rewrite (bind_with_applys P _ _ _ _ _ Ha0), app_nil_r in H.
  destruct (proj1 abridged_made h h' HR [] [] toks toks' d f) as (g & E & A); [constructor|exact HM|unfold made; rewrite Ha; exact H|].
  exists g. split; [|exact A]. unfold made in E. unfold make_filler, get_filler, bind_filler. destruct (gaf P [] h') as [s|e]; [|discriminate]. cbn in E |- *.
  rewrite apply_ops_own_only. apply bind_with_applys_conv in E. destruct E as (s1 & -> & E). exact E.
Qed.
End Repeat.

Lemma abridged_refl : forall {obj ty W} (P : Py obj ty W) (h : @hint obj ty W), abridged P h h.
Proof.
  intros obj ty W P. fix IH 1. intros h.
  destruct h; try (apply ab_simple; reflexivity).
  - apply ab_newtype, IH.
  - apply ab_union. induction hs as [|h r IHr]; constructor; [apply IH|exact IHr].
  - apply ab_tuple. induction hs as [|h r IHr]; constructor; [apply IH|exact IHr].
  - apply ab_tuples, IH.
  - apply ab_iter, IH.
  - apply ab_map; apply IH.
  - apply ab_generic. induction hs as [|h r IHr]; constructor; [apply IH|exact IHr].
  - apply ab_ann; [apply rp_same|apply IH].
Qed.
Lemma abridged_twins : forall {obj ty W} (R : Rt obj ty W) fs fs', abridged_fields (rt_py R) fs fs' -> twins R fs fs'.
Proof.
  intros obj ty W R fs fs' H. induction H as [|k f f' fs fs' (A & B & _ & C & d & h & h' & HR & M & M') _ IH]; constructor; [|exact IH]. repeat split; try assumption.
  destruct (abridged_fill (rt_py R) d h h' [] [] _ HR (rp_same _ []) M) as (g & E & AL). cbn in E. rewrite M' in E. injection E as <-. exact (Mixed_main.alike_call _ _ _ AL).
Qed.
Lemma styles_last : forall {obj ty W} (P : Py obj ty W) (ts : list (@token obj ty W)) s us,
  repeated P (ts ++ TStyle s :: us) (filter (fun t => match t with TStyle _ => false | _ => true end) ts ++ TStyle s :: us).
Proof.
  intros obj ty W P. induction ts as [|t r IH]; intros s us; [apply rp_same|]. cbn. destruct t; try (apply rp_behind, IH).
  eapply rp_again; [apply rp_behind, IH|]. clear IH. induction r as [|t r IH]; [apply rp_styles|]. cbn. destruct t; [exact IH| | |];
  (cbn; eapply rp_again; [apply rp_swap; exact I|apply rp_behind, IH]).
Qed.

Lemma c173_repeated_proof : forall {obj ty W} (P : Py obj ty W) d h h' toks toks' f, abridged P h h' -> repeated P toks toks' ->
  make_filler P d h (own_only toks) = Ok f ->
  exists g, make_filler P d h' (own_only toks') = Ok g /\ forall x w, call P g x w = call P f x w.
Proof.
  intros obj ty W P d h h' toks toks' f HR HM H. destruct (abridged_fill P d h h' toks toks' f HR HM H) as (g & E & A). exists g. split; [exact E|]. exact (Mixed_main.alike_call P _ _ A).
Qed.

Lemma c173_refused_proof : forall {obj ty W} (P : Py obj ty W) d h h' toks toks', abridged P h h' -> repeated P toks toks' ->
  (exists e, make_filler P d h (own_only toks) = Raise e) <-> (exists e, make_filler P d h' (own_only toks') = Raise e).
Proof.
  assert (K : forall obj ty W (P : Py obj ty W) d h h' toks toks', abridged P h h' -> repeated P toks toks' ->
    (exists e, make_filler P d h (own_only toks) = Raise e) -> (exists e, make_filler P d h' (own_only toks') = Raise e)).
  { intros obj ty W P d h h' toks toks' HR HM (e & E). destruct (make_filler P d h' (own_only toks')) as [g|e'] eqn:E'; [|eauto].
    destruct (abridged_fill P d h' h toks' toks g (proj1 (abridged_sym P) _ _ HR) (rp_sym _ _ _ HM) E') as (f & E2 & _). congruence. }
  intros obj ty W P d h h' toks toks' HR HM. split; apply K; try assumption; [apply abridged_sym; exact HR|apply rp_sym; exact HM].
Qed.

Lemma c173_last_style_proof : forall {obj ty W} (P : Py obj ty W) d h ts s us f,
  make_filler P d (HAnn h (ts ++ TStyle s :: us)) [] = Ok f ->
  exists g, make_filler P d (HAnn h (filter (fun t => match t with TStyle _ => false | _ => true end) ts ++ TStyle s :: us)) [] = Ok g /\
    forall x w, call P g x w = call P f x w.
Proof.
  intros obj ty W P d h ts s us f H.
  destruct (abridged_fill P d _ (HAnn h (filter (fun t => match t with TStyle _ => false | _ => true end) ts ++ TStyle s :: us)) [] [] f
    (ab_ann P h h _ _ (styles_last P ts s us) (abridged_refl P h)) (rp_same P []) H) as (g & E & A).
  exists g. split; [exact E|]. exact (Mixed_main.alike_call P _ _ A).
Qed.

Lemma c173_record_proof : forall {obj ty W} (R : Rt obj ty W) n c fs', abridged_fields (rt_py R) (c_fields c) fs' ->
  let c' := with_fields c fs' in
  (forall pos kw w, construct R n c' pos kw w = construct R n c pos kw w) /\
  (forall s maps kw w, from_mapping R n c' s maps kw w = from_mapping R n c s maps kw w) /\
  (forall s x maps kw w, from_instance R n c' s x maps kw w = from_instance R n c s x maps kw w) /\
  (forall s v w, from_json R n c' s v w = from_json R n c s v w) /\
  (forall v w, parse R n c' v w = parse R n c v w).
Proof.
  intros obj ty W R n c fs' H c'. apply abridged_twins in H. pose proof (twins_construct R c fs' H n) as K. fold c' in K.
  assert (B : forall (m : M W (dict obj)) w, (let* d := m in construct R n c' None d) w = (let* d := m in construct R n c None d) w).
  { intros m w1. unfold bind. destruct (m w1) as [[d|e] w2]; [apply K|reflexivity]. }
  split; [exact K|]. split; [|split; [|split]].
  - intros s maps kw w. unfold from_mapping, from_mapping_with, bind. destruct (chain_map R maps kw w) as [[d|e] w1]; [|reflexivity]. apply B.
  - intros s x maps kw w. unfold from_instance, from_instance_with. change (c_ty c') with (c_ty c). change (c_frozen c') with (c_frozen c).
    destruct (_ && isinstance (rt_py R) x (c_ty c)); [reflexivity|]. unfold c'. rewrite (twins_to_dict R c fs' H). fold c'. unfold bind. destruct (to_dict_of R c x no_args s w) as [[d|e] w1]; [|reflexivity].
    destruct (update_dict R d maps kw w1) as [[d2|e] w2]; [|reflexivity]. apply B.
  - intros s v w. unfold from_json, from_json_with, bind. destruct (json_loads R v w) as [[y|e] w1]; [|reflexivity].
    match goal with |- context [match ?m w1 with _ => _ end] => destruct (m w1) as [[d|e] w2] end; [|reflexivity]. apply B.
  - intros v w. unfold parse. apply (twins_parse R c fs' H). intros d w1. apply K.
Qed.

Lemma c173_assertions_proof : forall {obj ty W} (P : Py obj ty W) v, testing (TValid v) -> settled P (TValid v).
Proof.
  intros obj ty W P [g|] H k f E; [|discriminate]. cbn in H, E. destruct (H _ _ E) as (p & HP). intros x w y w1 EE. rewrite HP in EE.
  destruct (p x) eqn:EP; [discriminate|]. injection EE as <- <-. rewrite HP, EP. reflexivity.
Qed.

(** a validator that counts up, from 0 to 1 and from 1 to 2 *)
Definition counts : @token dobj dty demo_state :=
  TValid (VGlobal (fun _ => Ok (fun x => if dis x (DInt 0) then ret (DInt 1) else if dis x (DInt 1) then ret (DInt 2) else ret x))).
(** a coercer that makes 1 from "1" and from 1, and refuses everything else *)
Definition one_of : @token dobj dty demo_state :=
  TCoerce (CGlobal (fun _ => Ok (fun x w => (if dis x (DStr "1") || dis x (DInt 1) then Ok (DInt 1) else Raise (mkexc ValueError ""), w)))).

Lemma one_of_settled : settled demo0 one_of.
Proof.
  intros k f E. cbn in E. injection E as <-. split; intros x w y w1 EE; cbn in EE |- *; destruct (dis x (DStr "1") || dis x (DInt 1)) eqn:D; try discriminate; injection EE as <- <-; reflexivity.
Qed.

Lemma c173_validator_refuted_proof : exists (P : Py dobj dty demo_state) h t f g x y z w,
  make_filler P SCheck (HAnn h [t]) [] = Ok f /\ make_filler P SCheck (HAnn h [t; t]) [] = Ok g /\
  call P f x w = (Ok y, w) /\ call P g x w = (Ok z, w) /\ y <> z.
Proof.
  exists demo0, (HTy TInt), counts. do 2 eexists. exists (DInt 0), (DInt 1), (DInt 2), st0.
  repeat (split; [reflexivity|]). discriminate.
Qed.

Lemma c173_apart_refuted_proof : exists (P : Py dobj dty demo_state) h t u f g x y e w,
  settled P t /\ settled P u /\ is_coercion t = true /\ is_coercion u = true /\
  make_filler P SCheck (HAnn h [t; u]) [] = Ok f /\ make_filler P SCheck (HAnn h [t; u; t]) [] = Ok g /\
  call P f x w = (Raise e, w) /\ call P g x w = (Ok y, w).
Proof.
  exists demo0, (HTy TInt), one_of, (always (DStr "1")). do 2 eexists. exists DNone, (DInt 1). eexists. exists st0.
  split; [|split; [|repeat (split; [reflexivity|]); reflexivity]].
  - exact one_of_settled.
  - intros k f E. cbn in E. injection E as <-. split; intros x w y w1 EE; cbv in EE; [injection EE as <- <-; reflexivity|discriminate].
Qed.
