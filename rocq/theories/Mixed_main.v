(** Mixed_main.v -- proofs of the properties stated in Props_Mixed.v: the order of tokens (records/fillers/filler.py:162-238, get_filler.py:31-70) *)

From Verif Require Import Base Py Select Filler Spec_Filler Classes Spec_Classes Runtime Record Spec_Record Spec_Wider Spec_Mixed Demo DemoRt DemoCls.
From Verif Require Import Wider_main.
From Verif Require Record_proofs Dict_proofs Filler_proofs Filler_shape Filler_eqs Filler_main.
Open Scope string_scope.
Open Scope list_scope.

Import Filler_proofs Filler_shape Filler_eqs Wider_main.

Scheme rearranged_mut := Induction for rearranged Sort Prop
with all_rearranged_mut := Induction for all_rearranged Sort Prop.
Combined Scheme rearranged_both from rearranged_mut, all_rearranged_mut.

Section Mixed.
Context {obj ty W : Type} (P : Py obj ty W).
Notation token := (@token obj ty W).
Notation hint := (@hint obj ty W).
Notation filler := (@filler obj ty W).
Notation callback := (@callback obj W).
Notation akind := (@akind obj ty).

Lemma mixed_kinds : forall (ts us : list token), mixed ts us ->
  styles_of us = styles_of ts /\ coercions_of us = coercions_of ts /\ validations_of us = validations_of ts /\ List.length us = List.length ts.
Proof.
  intros ts us H. induction H as [l|t l l' H (A & B & C & D)|t u l H|l1 l2 l3 _ (A & B & C & D) _ (A' & B' & C' & D')].
  - auto.
  - unfold styles_of, coercions_of, validations_of in *. cbn. rewrite A, B, C, D. auto.
  - unfold styles_of, coercions_of, validations_of. destruct t, u; cbn in H |- *; try contradiction; auto.
  - repeat split; congruence.
Qed.

Lemma mixed_app : forall (a a' b b' : list token), mixed a a' -> mixed b b' -> mixed (a ++ b) (a' ++ b').
Proof.
  intros a a' b b' HA HB. apply m_again with (a ++ b').
  - clear HA. induction a as [|t r IH]; [exact HB|]. apply m_behind. exact IH.
  - clear HB. induction HA as [l|t l l' H IH|t u l H|l1 l2 l3 _ I1 _ I2]; cbn; [constructor|constructor; exact IH|constructor; exact H|eapply m_again; eassumption].
Qed.

(** two fields that do the same *)
Definition alike (f g : filler) : Prop := is_hollow g = is_hollow f /\ forall x w, fill P g x w = fill P f x w.

Lemma alike_call : forall f g, alike f g -> forall x w, call P g x w = call P f x w.
Proof. intros f g [_ H] x w. rewrite !call_eq, H. reflexivity. Qed.

Definition matching (a b : @afiller obj ty W) : Prop :=
  a_kind b = a_kind a /\ a_style b = a_style a /\ a_coercers b = a_coercers a /\
  Forall2 (fun f g : callback => forall x w, g x w = f x w) (a_validators a) (a_validators b).

Lemma validators_ext : forall vs us : list callback, Forall2 (fun f g => forall x w, g x w = f x w) vs us -> forall x w, run_validators us x w = run_validators vs x w.
Proof.
  intros vs us H. induction H as [|f g vs us E _ IH]; intros x w; [reflexivity|]. cbn. unfold bind. rewrite E. destruct (f x w) as [[y|e] w1]; [apply IH|reflexivity].
Qed.
Lemma matching_fill : forall a b, matching a b -> forall x w, afill P b x w = afill P a x w.
Proof.
  intros a b (K & S & C & V) x w. unfold afill. rewrite K, S, C. unfold bind. destruct (type_phase P (a_kind a) (a_style a) (a_coercers a) x w) as [[p|e] w1]; [|reflexivity].
  rewrite (validators_ext _ _ V). reflexivity.
Qed.
Lemma matching_add : forall a b f g, matching a b -> (forall x w, g x w = f x w) -> matching (add_validator a f) (add_validator b g).
Proof.
  intros a b f g (K & S & C & V) E. repeat split; cbn; try assumption. apply Forall2_app; [exact V|]. constructor; [exact E|constructor].
Qed.
Lemma matching_hollow : forall a b, matching a b -> ahollow b = ahollow a.
Proof. intros a b (_ & S & _). unfold ahollow. rewrite S. reflexivity. Qed.

(** the same callables, bound in the same way *)
Lemma bound_matching : forall d (k : akind) own own' pre pre' a1 a2, mixed own own' -> mixed pre pre' ->
  aapplys P (mk_afiller k own) pre = Ok a1 -> abind P d a1 = Ok a2 ->
  exists b1 b2, aapplys P (mk_afiller k own') pre' = Ok b1 /\ abind P d b1 = Ok b2 /\ matching a2 b2.
Proof.
  intros d k own own' pre pre' a1 a2 HO HP H1 H2. destruct (bound_afiller P d pre k own a1 a2 H1 H2) as (cs & vs & HC & HV & E & HH & HS).
  destruct (mixed_kinds _ _ (mixed_app _ _ _ _ HP HO)) as (KS & KC & KV & _).
  assert (ES : eff_style d (pre' ++ own') = eff_style d (pre ++ own)).
  { unfold eff_style, last_style. rewrite (style_filter (pre' ++ own')), (style_filter (pre ++ own)), KS. reflexivity. }
  rewrite coercers_filter, <- KC, <- coercers_filter in HC. rewrite validators_filter, <- KV, <- validators_filter in HV.
  pose proof (bound_fwd P d pre' k own' cs vs HC HV) as B. cbv zeta in B. rewrite ES in B.
  assert (N1 : style_eqb (eff_style d (pre ++ own)) SHollow && negb (match cs with [] => true | _ => false end) = false).
  { destruct (style_eqb_spec (eff_style d (pre ++ own)) SHollow) as [X|]; [|reflexivity]. rewrite (HH X). reflexivity. }
  assert (N2 : style_eqb (eff_style d (pre ++ own)) SStrict && kind_abstract P k = false).
  { destruct (style_eqb_spec (eff_style d (pre ++ own)) SStrict) as [X|]; [|reflexivity]. rewrite (HS X). reflexivity. }
  rewrite N1, N2 in B. set (s := eff_style d (pre ++ own)) in *.
  assert (B' : (do b1 <- aapplys P (mk_afiller k own') pre'; abind P d b1) = Ok (AF k own' s cs (vs ++ lit_validators P k s) true)) by (destruct k; exact B).
  destruct (aapplys P (mk_afiller k own') pre') as [b1|e]; [|discriminate]. cbn in B'. exists b1. eexists. split; [reflexivity|]. split; [exact B'|].
  rewrite E. repeat split. cbn. clear. induction (vs ++ lit_validators P k s); constructor; auto.
Qed.

Lemma fill_rest_ext : forall rk (f g : callback), (forall x w, g x w = f x w) -> forall v l done w, fill_rest P rk g v done l w = fill_rest P rk f v done l w.
Proof.
  intros rk f g E v. assert (MM : forall l w, mapM g l w = mapM f l w).
  { induction l as [|e r IH]; intros w; [reflexivity|]. cbn. unfold bind. rewrite E. destruct (f e w) as [[y|x] w1]; [|reflexivity]. rewrite IH. reflexivity. }
  induction l as [|e r IH]; intros done w; [reflexivity|]. cbn. unfold bind. rewrite E. destruct (f e w) as [[y|x] w1]; [|reflexivity].
  destruct (py_is P y e); [apply IH|]. rewrite MM. reflexivity.
Qed.
Lemma iter_ext : forall rk (f g : callback), (forall x w, g x w = f x w) -> forall x w, iter_validator P rk g x w = iter_validator P rk f x w.
Proof. intros rk f g E x w. unfold iter_validator. destruct (elems P x); [apply fill_rest_ext; exact E|reflexivity]. Qed.

Lemma fill_zip_ext : forall fs gs : list callback, Forall2 (fun f g => forall x w, g x w = f x w) fs gs -> forall l w, fill_zip gs l w = fill_zip fs l w.
Proof.
  intros fs gs H. induction H as [|f g fs gs E _ IH]; intros [|e r] w; try reflexivity. cbn. unfold bind. rewrite E. destruct (f e w) as [[y|x] w1]; [|reflexivity].
  rewrite IH. reflexivity.
Qed.
Lemma tuple_ext : forall fs gs : list callback, Forall2 (fun f g => forall x w, g x w = f x w) fs gs -> forall x w, tuple_validator P gs x w = tuple_validator P fs x w.
Proof.
  intros fs gs H x w. unfold tuple_validator. destruct (elems P x) as [l|]; [|reflexivity]. generalize (@nil obj) as done. revert l w.
  induction H as [|f g fs gs E H IH]; intros [|e r] w done; try reflexivity. cbn. unfold bind. rewrite E. destruct (f e w) as [[y|z] w1]; [|reflexivity].
  destruct (py_is P y e); [apply IH|]. rewrite (fill_zip_ext _ _ H). reflexivity.
Qed.
Lemma map_ext2 : forall rk (fk gk fv gv : callback), (forall x w, gk x w = fk x w) -> (forall x w, gv x w = fv x w) ->
  forall x w, map_validator P rk gk gv x w = map_validator P rk fk fv x w.
Proof.
  intros rk fk gk fv gv EK EV x w. unfold map_validator. destruct (items P x) as [l|]; [|reflexivity]. unfold bind.
  replace (mapM (fill_pair gk gv) l w) with (mapM (fill_pair fk fv) l w); [reflexivity|]. symmetry. revert w.
  induction l as [|[k v] r IH]; intros w; [reflexivity|]. cbn. unfold fill_pair, bind. cbn. rewrite EK. destruct (fk k w) as [[y|e] w1]; [|reflexivity].
  rewrite EV. destruct (fv v w1) as [[z|e] w2]; [|reflexivity]. cbn. rewrite IH. reflexivity.
Qed.
Lemma union_ext : forall (fs gs : list (obj -> M W (obj * tpk))), Forall2 (fun f g => forall x w, g x w = f x w) fs gs ->
  forall x best key w, union_loop gs x best key w = union_loop fs x best key w.
Proof.
  intros fs gs H. induction H as [|f g fs gs E H IH]; intros x best key w; [reflexivity|]. cbn. rewrite E. destruct (f x w) as [[[v k]|e] w1].
  - rewrite !IH. reflexivity.
  - rewrite IH. destruct H; reflexivity.
Qed.
Lemma alike_calls : forall fs gs, Forall2 alike fs gs -> Forall2 (fun f g : callback => forall x w, g x w = f x w) (map (call P) fs) (map (call P) gs).
Proof. intros fs gs H. induction H as [|f g fs gs E _ IH]; cbn; constructor; [apply alike_call; exact E|exact IH]. Qed.
Lemma alike_fills : forall fs gs, Forall2 alike fs gs -> Forall2 (fun f g => forall x w, g x w = f x w) (map (fill P) fs) (map (fill P) gs).
Proof. intros fs gs H. induction H as [|f g fs gs [_ E] _ IH]; cbn; constructor; [exact E|exact IH]. Qed.
Lemma alike_hollow : forall fs gs, Forall2 alike fs gs -> forallb is_hollow gs = forallb is_hollow fs /\ List.length gs = List.length fs.
Proof. intros fs gs H. induction H as [|f g fs gs [E _] _ [IH IL]]; cbn; [auto|]. rewrite E, IH, IL. auto. Qed.

Lemma hollow_parts : forall d (l l' : list filler),
  mapO (fun s => do s' <- bind_with P d [] s; if is_hollow s' then Ok s' else Raise (mkexc TypeError "A non-specialized filler cannot have non-hollow inner types")) l = Ok l' <->
  mapO (bind_with P d []) l = Ok l' /\ forallb is_hollow l' = true.
Proof.
  intros d. induction l as [|s r IH]; intros l'; cbn.
  - split; [intros H; injection H as <-; auto|intros [H _]; exact H].
  - destruct (bind_with P d [] s) as [s'|e]; cbn; [|split; [discriminate|intros [H _]; discriminate]].
    destruct (is_hollow s') eqn:EH; cbn.
    + split.
      * intros H. oinv H. injection H as <-. apply IH in Ha. destruct Ha as [-> Hb]. cbn. rewrite EH. auto.
      * intros [H HH]. oinv H. injection H as <-. cbn in HH. rewrite EH in HH. destruct (IH a) as [_ I]. rewrite (I (conj Ha HH)). reflexivity.
    + split; [discriminate|]. intros [H HH]. oinv H. injection H as <-. cbn in HH. rewrite EH in HH. discriminate.
Qed.

Definition made (d : style) (args pre : list token) (h : hint) : outcome filler := do s <- gaf P args h; bind_with P d pre s.
Definition all_made (d : style) (pre : list token) (hs : list hint) : outcome (list filler) := do ss <- mapO (gaf P []) hs; mapO (bind_with P d pre) ss.

Lemma rearranged_made :
  (forall h h', rearranged h h' -> forall args args' pre pre' d f, mixed args args' -> mixed pre pre' ->
     made d args pre h = Ok f -> exists g, made d args' pre' h' = Ok g /\ alike f g) /\
  (forall hs hs', all_rearranged hs hs' -> forall pre pre' d fs, mixed pre pre' ->
     all_made d pre hs = Ok fs -> exists gs, all_made d pre' hs' = Ok gs /\ Forall2 alike fs gs).
Proof.
  apply rearranged_both; unfold made, all_made.
  - (* simple *)
    intros h HS args args' pre pre' d f HA HP H.
    assert (LEAF : forall k, (do s <- Ok (FAnn (mk_afiller k args)); bind_with P d pre s) = Ok f -> exists g, (do s <- Ok (FAnn (mk_afiller k args')); bind_with P d pre' s) = Ok g /\ alike f g).
    { intros k E. cbn in E |- *. oinv E. oinv E. injection E as <-. destruct (bound_matching d k args args' pre pre' _ _ HA HP Ea Ea0) as (b1 & b2 & -> & B2 & M). cbn. rewrite B2. cbn.
      eexists. split; [reflexivity|]. split; [cbn; apply matching_hollow; exact M|]. intros x w. cbn. apply matching_fill. exact M. }
    assert (DUMB : (do s <- dumb args; bind_with P d pre s) = Ok f -> exists g, (do s <- dumb args'; bind_with P d pre' s) = Ok g /\ alike f g).
    { intros E. destruct (mixed_kinds _ _ HA) as (_ & _ & _ & LA). destruct (mixed_kinds _ _ HP) as (_ & _ & _ & LP).
      destruct args as [|]; [|discriminate]. destruct args' as [|]; [|discriminate]. cbn in E |- *. destruct pre as [|]; [|discriminate]. destruct pre' as [|]; [|discriminate].
      exists f. split; [exact E|]. split; reflexivity. }
    destruct h; try discriminate; try (apply LEAF; exact H); try (apply DUMB; exact H).
    (* Type *)
    cbn in H |- *. oinv H. oinv H. injection H as <-. destruct (bound_matching d _ args args' pre pre' _ _ HA HP Ha Ha0) as (b1 & b2 & -> & B2 & M). cbn. rewrite B2. cbn.
    eexists. split; [reflexivity|]. rewrite (matching_hollow _ _ M). destruct (ahollow a0) eqn:EH.
    + split; [cbn; apply matching_hollow; exact M|]. intros x w. cbn. apply matching_fill. exact M.
    + assert (M2 := matching_add _ _ (type_validator P base) (type_validator P base) M (fun x w => eq_refl)).
      split; [cbn; apply matching_hollow in M2; exact M2|]. intros x w. cbn. apply matching_fill. exact M2.
  - (* Annotated *)
    intros h h' ts us HT _ IH args args' pre pre' d f HA HP H. cbn in *. apply (IH (ts ++ args) (us ++ args') pre pre' d f); [apply mixed_app; assumption|exact HP|exact H].
  - (* NewType *)
    intros h h' HR IH args args' pre pre' d f HA HP H. destruct (mixed_kinds _ _ HA) as (_ & _ & _ & LA). destruct (mixed_kinds _ _ HP) as (_ & _ & _ & LP).
    destruct HR; try (apply (IH args args' pre pre' d f HA HP); exact H).
    + cbn in H |- *. destruct h; try discriminate; exact (IH args args' pre pre' d f HA HP H).
    + cbn in H |- *. destruct args as [|]; [|discriminate]. destruct args' as [|]; [|discriminate]. cbn in H |- *.
      destruct pre as [|]; [|discriminate]. destruct pre' as [|]; [|discriminate]. exists f. split; [exact H|]. split; reflexivity.
  - (* Union *)
    intros hs hs' HR IH args args' pre pre' d f HA HP H. cbn in *. oinv H. oinv Ha. injection Ha as <-. cbn in H. oinv H. injection H as <-.
    destruct (IH (args ++ pre) (args' ++ pre') d a) as (gs & E & FA); [apply mixed_app; assumption|rewrite Haa; cbn; exact Ha|].
    destruct (mapO (gaf P []) hs') as [ss|e]; [|discriminate]. cbn in E |- *. rewrite E. cbn. eexists. split; [reflexivity|].
    destruct (alike_hollow _ _ FA) as [EH _]. split; [exact EH|]. intros x w. cbn [fill]. rewrite EH. destruct (forallb is_hollow a); [reflexivity|].
    unfold bind. rewrite (union_ext _ _ (alike_fills _ _ FA)). reflexivity.
  - (* Tuple[T1, ..., Tn] *)
    intros hs hs' HR IH args args' pre pre' d f HA HP H. cbn in H |- *. oinv H. oinv Ha. injection Ha as <-. cbn in H. oinv H. oinv H. oinv H.
    destruct (bound_matching d _ args args' pre pre' _ _ HA HP Ha Ha0) as (b1 & b2 & B1 & B2 & M).
    destruct (IH [] [] d a2) as (gs & E & FA); [constructor|rewrite Haa; exact Ha1|].
    destruct (mapO (gaf P []) hs') as [ss|e] eqn:ES; [|discriminate]. cbn in E |- *. rewrite B1. cbn. rewrite B2. cbn. rewrite E. cbn.
    destruct (alike_hollow _ _ FA) as [EH EL]. rewrite EH, (matching_hollow _ _ M).
    assert (LEN : List.length ss = List.length a0) by (rewrite <- (mapO_length _ _ _ E), <- (mapO_length _ _ _ Ha1); exact EL).
    rewrite LEN. set (x1 := if ahollow a1 then a1 else add_validator a1 (len_validator P (List.length a0))) in *.
    set (y1 := if ahollow a1 then b2 else add_validator b2 (len_validator P (List.length a0))) in *.
    assert (M1 : matching x1 y1) by (unfold x1, y1; destruct (ahollow a1); [exact M|apply matching_add; [exact M|reflexivity]]).
    rewrite (matching_hollow _ _ M1).
    destruct (forallb is_hollow a2); [|destruct (ahollow x1); [discriminate|]]; injection H as <-; (eexists; split; [reflexivity|]).
    + split; [cbn; apply matching_hollow; exact M1|]. intros x w. cbn. apply matching_fill. exact M1.
    + assert (M2 := matching_add _ _ _ _ M1 (tuple_ext _ _ (alike_calls _ _ FA))). split; [cbn; apply matching_hollow in M2; exact M2|]. intros x w. cbn. apply matching_fill. exact M2.
  - (* other generics *)
    intros t hs hs' HR IH args args' pre pre' d f HA HP H. cbn in H |- *. oinv H. oinv Ha. injection Ha as <-. cbn in H. oinv H. oinv H. oinv H. injection H as <-.
    destruct (bound_matching d _ args args' pre pre' _ _ HA HP Ha Ha0) as (b1 & b2 & B1 & B2 & M).
    apply hollow_parts in Ha1. destruct Ha1 as [Ha1 HH].
    destruct (IH [] [] d a2) as (gs & E & FA); [constructor|rewrite Haa; exact Ha1|].
    destruct (alike_hollow _ _ FA) as [EH _]. rewrite HH in EH.
    destruct (mapO (gaf P []) hs') as [ss|e] eqn:ES; [|discriminate]. cbn in E |- *. rewrite B1. cbn. rewrite B2. cbn.
    rewrite (proj2 (hollow_parts d ss gs) (conj E EH)). cbn. eexists. split; [reflexivity|].
    split; [cbn; apply matching_hollow; exact M|]. intros x w. cbn. apply matching_fill. exact M.
  - (* Tuple[T, ...] *)
    intros h h' HR IH args args' pre pre' d f HA HP H. cbn in H |- *. oinv H. oinv Ha. injection Ha as <-. cbn in H. oinv H. oinv H. oinv H.
    destruct (bound_matching d _ args args' pre pre' _ _ HA HP Ha Ha0) as (b1 & b2 & B1 & B2 & M).
    destruct (IH [] [] [] [] d a2) as (g & E & EA); [constructor|constructor|rewrite Haa; exact Ha1|].
    pose proof (alike_call _ _ EA) as EC. destruct EA as [EH _].
    destruct (gaf P [] h') as [s|e] eqn:ES; [|discriminate]. cbn in E |- *. rewrite B1. cbn. rewrite B2. cbn. rewrite E. cbn. rewrite EH, (matching_hollow _ _ M).
    destruct (is_hollow a2); [|destruct (ahollow a1); [discriminate|]]; injection H as <-; (eexists; split; [reflexivity|]).
    + split; [cbn; apply matching_hollow; exact M|]. intros x w. cbn. apply matching_fill. exact M.
    + assert (M2 := matching_add _ _ _ _ M (iter_ext RkPlain _ _ EC)). split; [cbn; apply matching_hollow in M2; exact M2|]. intros x w. cbn. apply matching_fill. exact M2.
  - (* iterables *)
    intros rk t h h' HR IH args args' pre pre' d f HA HP H. cbn in H |- *. oinv H. oinv Ha. injection Ha as <-. cbn in H. oinv H. oinv H. oinv H.
    destruct (bound_matching d _ args args' pre pre' _ _ HA HP Ha Ha0) as (b1 & b2 & B1 & B2 & M).
    destruct (IH [] [] [] [] d a2) as (g & E & EA); [constructor|constructor|rewrite Haa; exact Ha1|].
    pose proof (alike_call _ _ EA) as EC. destruct EA as [EH _].
    destruct (gaf P [] h') as [s|e] eqn:ES; [|discriminate]. cbn in E |- *. rewrite B1. cbn. rewrite B2. cbn. rewrite E. cbn. rewrite EH, (matching_hollow _ _ M).
    destruct (is_hollow a2); [|destruct (ahollow a1); [discriminate|]]; injection H as <-; (eexists; split; [reflexivity|]).
    + split; [cbn; apply matching_hollow; exact M|]. intros x w. cbn. apply matching_fill. exact M.
    + assert (M2 := matching_add _ _ _ _ M (iter_ext rk _ _ EC)). split; [cbn; apply matching_hollow in M2; exact M2|]. intros x w. cbn. apply matching_fill. exact M2.
  - (* mappings *)
    intros rk t hk hk' hv hv' HRk IHk HRv IHv args args' pre pre' d f HA HP H. cbn in H |- *. oinv H. oinv Ha. oinv Ha. injection Ha as <-. cbn in H. oinv H. oinv H. oinv H. oinv H.
    destruct (bound_matching d _ args args' pre pre' _ _ HA HP Ha Ha0) as (b1 & b2 & B1 & B2 & M).
    destruct (IHk [] [] [] [] d a3) as (gk & E & EA); [constructor|constructor|rewrite Haa; exact Ha1|].
    destruct (IHv [] [] [] [] d a4) as (gv & E' & EA'); [constructor|constructor|rewrite Haa0; exact Ha2|].
    pose proof (alike_call _ _ EA) as EC. destruct EA as [EH _]. pose proof (alike_call _ _ EA') as EC'. destruct EA' as [EH' _].
    destruct (gaf P [] hk') as [sk|e]; [|discriminate]. destruct (gaf P [] hv') as [sv|e]; [|discriminate]. cbn in E, E' |- *. rewrite B1. cbn. rewrite B2. cbn. rewrite E. cbn. rewrite E'. cbn.
    rewrite EH, EH', (matching_hollow _ _ M).
    destruct (is_hollow a3 && is_hollow a4); [|destruct (ahollow a2); [discriminate|]]; injection H as <-; (eexists; split; [reflexivity|]).
    + split; [cbn; apply matching_hollow; exact M|]. intros x w. cbn. apply matching_fill. exact M.
    + assert (M2 := matching_add _ _ _ _ M (map_ext2 rk _ _ _ _ EC EC')). split; [cbn; apply matching_hollow in M2; exact M2|]. intros x w. cbn. apply matching_fill. exact M2.
  - intros pre pre' d fs HP H. cbn in *. injection H as <-. exists []. split; [reflexivity|constructor].
  - intros h h' hs hs' _ IH _ IHs pre pre' d fs HP H. cbn in H |- *. destruct (gaf P [] h) as [s|e] eqn:E1; [|discriminate]. cbn in H. destruct (mapO (gaf P []) hs) as [ss|e] eqn:E2; [|discriminate]. cbn in H.
    oinv H. oinv H. injection H as <-.
    destruct (IH [] [] pre pre' d a) as (g & G1 & G2); [constructor|exact HP|rewrite E1; exact Ha|].
    destruct (IHs pre pre' d a0) as (gs & G3 & G4); [exact HP|exact Ha0|].
    destruct (gaf P [] h') as [s'|e]; [|discriminate]. destruct (mapO (gaf P []) hs') as [ss'|e]; [|discriminate]. cbn in G1, G3 |- *. rewrite G1. cbn. rewrite G3. cbn.
    eexists. split; [reflexivity|]. constructor; assumption.
Qed.

Lemma mixed_sym : forall ts us : list token, mixed ts us -> mixed us ts.
Proof. intros ts us H. induction H; [constructor|constructor; assumption|apply m_swap; destruct t, u; cbn in *; auto|eapply m_again; eassumption]. Qed.
Lemma rearranged_sym : (forall h h' : hint, rearranged h h' -> rearranged h' h) /\ (forall hs hs' : list hint, all_rearranged hs hs' -> all_rearranged hs' hs).
Proof. apply rearranged_both; intros; constructor; auto using mixed_sym. Qed.

Lemma rearranged_fill : forall d h h' toks toks' f, rearranged h h' -> mixed toks toks' -> make_filler P d h (own_only toks) = Ok f ->
  exists g, make_filler P d h' (own_only toks') = Ok g /\ alike f g.
Proof.
  intros d h h' toks toks' f HR HM H. unfold make_filler, get_filler, bind_filler in H. oinv H. rewrite apply_ops_own_only in H. oinv H.
  rewrite (bind_with_applys P _ _ _ _ _ Ha0), app_nil_r in H.
  destruct (proj1 rearranged_made h h' HR [] [] toks toks' d f) as (g & E & A); [constructor|exact HM|unfold made; rewrite Ha; exact H|].
  exists g. split; [|exact A]. unfold made in E. unfold make_filler, get_filler, bind_filler. destruct (gaf P [] h') as [s|e]; [|discriminate]. cbn in E |- *.
  rewrite apply_ops_own_only. apply bind_with_applys_conv in E. destruct E as (s1 & -> & E). exact E.
Qed.
End Mixed.

Section Records.
Context {obj ty W : Type} (R : Rt obj ty W).
Notation P := (rt_py R).
Notation cls := (@cls obj ty W).

(** fields that differ in how they were made only *)
Definition twin (f f' : @field obj ty W) : Prop :=
  f_name f' = f_name f /\ f_default f' = f_default f /\ f_tags f' = f_tags f /\ forall x w, call P (f_filler f') x w = call P (f_filler f) x w.
Inductive twins : dict (@field obj ty W) -> dict (@field obj ty W) -> Prop :=
| tw_nil : twins [] []
| tw_cons : forall k f f' fs fs', twin f f' -> twins fs fs' -> twins ((k, f) :: fs) ((k, f') :: fs').

Lemma rearranged_twins : forall fs fs', rearranged_fields P fs fs' -> twins fs fs'.
Proof.
  intros fs fs' H. induction H as [|k f f' fs fs' (A & B & _ & C & d & h & h' & HR & M & M') _ IH]; constructor; [|exact IH]. repeat split; try assumption.
  destruct (rearranged_fill P d h h' [] [] _ HR (m_same []) M) as (g & E & AL). cbn in E. rewrite M' in E. injection E as <-. exact (alike_call P _ _ AL).
Qed.

Lemma twins_get : forall fs fs', twins fs fs' -> forall k,
  match dget k fs, dget k fs' with Some f, Some f' => twin f f' | None, None => True | _, _ => False end.
Proof. intros fs fs' H. induction H as [|k f f' fs fs' HF _ IH]; intro j; cbn; [exact I|]. destruct (String.eqb j k); [exact HF|apply IH]. Qed.
Lemma twins_keys : forall fs fs', twins fs fs' -> keys fs' = keys fs /\ required_keys fs' = required_keys fs /\ optional_keys fs' = optional_keys fs.
Proof.
  intros fs fs' H. assert (K : keys fs' = keys fs /\ required_keys fs' = required_keys fs).
  { induction H as [|k f f' fs fs' HF _ [IH1 IH2]]; [auto|]. unfold required_keys, keys in *. cbn.
    destruct HF as (_ & HD & _). assert (E : has_default f' = has_default f) by (unfold has_default; rewrite HD; reflexivity).
    rewrite E. split; [apply (f_equal (cons k)); exact IH1|]. destruct (has_default f); cbn; [exact IH2|apply (f_equal (cons k)); exact IH2]. }
  destruct K as [K1 K2]. split; [assumption|]. split; [assumption|]. unfold optional_keys. rewrite K1, K2. reflexivity.
Qed.
Lemma twins_mem : forall fs fs', twins fs fs' -> forall k, dmem k fs' = dmem k fs.
Proof. intros fs fs' H k. pose proof (twins_get _ _ H k) as G. unfold dmem. destruct (dget k fs), (dget k fs'); tauto. Qed.

Lemma twins_kwargs : forall c fs', twins (c_fields c) fs' -> forall p kw w, fill_kwargs R (with_fields c fs') p kw w = fill_kwargs R c p kw w.
Proof.
  intros c fs' H p. induction kw as [|[k a] r IH]; intros w; [reflexivity|]. cbn. pose proof (twins_get _ _ H k) as G.
  destruct (dget k (c_fields c)) as [f|]; destruct (dget k fs') as [f'|]; try (destruct G; fail); [|reflexivity].
  destruct G as (_ & _ & _ & G). rewrite G. destruct (call P (f_filler f) a w) as [[y|e] w1]; [|reflexivity]. unfold bind. rewrite IH. reflexivity.
Qed.
Lemma twins_defaults : forall c fs', twins (c_fields c) fs' -> forall ks w, fill_defaults (with_fields c fs') ks w = fill_defaults c ks w.
Proof.
  intros c fs' H. induction ks as [|k r IH]; intros w; [reflexivity|]. cbn. pose proof (twins_get _ _ H k) as G.
  unfold bind. destruct (dget k (c_fields c)) as [f|]; destruct (dget k fs') as [f'|]; try (destruct G; fail); [|reflexivity].
  destruct G as (_ & G & _). unfold make_default. rewrite G. destruct (f_default f); cbn; unfold ret, raise; try reflexivity;
  rewrite ?IH; try reflexivity. destruct (f0 w) as [[v|e] w1]; [|reflexivity]. rewrite IH. reflexivity.
Qed.
Lemma twins_build : forall c fs', twins (c_fields c) fs' -> forall p kw w, build R (with_fields c fs') p kw w = build R c p kw w.
Proof.
  intros c fs' H p kw w. unfold build. cbn [with_fields c_fields]. destruct (twins_keys _ _ H) as (_ & -> & ->).
  assert (K : forall l, forallb (fun k => dmem k fs') l = forallb (fun k => dmem k (c_fields c)) l).
  { induction l as [|k r IH]; [reflexivity|]. cbn. rewrite (twins_mem _ _ H), IH. reflexivity. }
  rewrite K. destruct (negb (forallb _ (keys kw))); [reflexivity|]. unfold bind. rewrite (twins_kwargs c fs' H).
  destruct (fill_kwargs R c p kw w) as [[[vs|]|e] w1]; try reflexivity. destruct (negb (forallb _ _)); [reflexivity|]. rewrite (twins_defaults c fs' H). reflexivity.
Qed.
Lemma twins_to_dict : forall c fs', twins (c_fields c) fs' -> forall x a s, to_dict_of R (with_fields c fs') x a s = to_dict_of R c x a s.
Proof.
  intros c fs' H x a s. unfold to_dict_of. destruct (twins_keys _ _ H) as (K1 & _ & K3).
  assert (E : map (fun kf => (fst kf, real_field (snd kf))) fs' = map (fun kf : string * @field obj ty W => (fst kf, real_field (snd kf))) (c_fields c)).
  { clear K1 K3. induction H as [|k f f' fs fs' (A & B & C & _) _ IH]; [reflexivity|]. cbn. unfold real_field at 1 3. rewrite A, B, C, IH. reflexivity. }
  assert (EX : extraction (with_fields c fs') s = extraction c s).
  { unfold extraction. cbn [with_fields c_fields]. rewrite E. destruct (fst (sel_truth s)); [|reflexivity].
    assert (F : forall l (d : dict (@xfield obj W)), fold_left (fun d k => if dmem k fs' then d else dset k (mock_field k) d) l d = fold_left (fun d k => if dmem k (c_fields c) then d else dset k (mock_field k) d) l d).
    { induction l as [|k r IH]; intros d; [reflexivity|]. cbn. rewrite (twins_mem _ _ H). apply IH. }
    rewrite !F. reflexivity. }
  rewrite EX. unfold missing_ok. cbn [with_fields c_fields]. rewrite K3. reflexivity.
Qed.

Lemma twins_run_parser : forall c fs', twins (c_fields c) fs' -> forall mk mk', (forall d w, mk' d w = mk d w) -> forall p v w,
  run_parser R mk' (with_fields c fs') p v w = run_parser R mk c p v w.
Proof.
  intros c fs' H mk mk' HM p v w.
  assert (B : forall (m : M W (dict obj)) w, (let* d := m in mk' d) w = (let* d := m in mk d) w).
  { intros m w1. unfold bind. destruct (m w1) as [[d|e] w2]; [apply HM|reflexivity]. }
  destruct p; cbn; [| | |reflexivity].
  - unfold from_instance_with. change (c_ty (with_fields c fs')) with (c_ty c). change (c_frozen (with_fields c fs')) with (c_frozen c).
    destruct (_ && isinstance P v (c_ty c)); [reflexivity|]. rewrite (twins_to_dict c fs' H). unfold bind. destruct (to_dict_of R c v no_args sel_empty w) as [[d|e] w1]; [|reflexivity].
    destruct (update_dict R d [] [] w1) as [[d2|e] w2]; [|reflexivity]. apply B.
  - unfold from_json_with, bind. destruct (json_loads R v w) as [[y|e] w1]; [|reflexivity]. match goal with |- context [match ?m w1 with _ => _ end] => destruct (m w1) as [[d|e] w2] end; [|reflexivity]. apply B.
  - unfold from_mapping_with, bind. destruct (chain_map R [v] [] w) as [[d|e] w1]; [|reflexivity]. apply B.
Qed.
Lemma twins_parse : forall c fs', twins (c_fields c) fs' -> forall mk mk', (forall d w, mk' d w = mk d w) -> forall v w,
  parse_with R mk' (with_fields c fs') v w = parse_with R mk c v w.
Proof.
  intros c fs' H mk mk' HM v w. unfold parse_with. change (c_parsers (with_fields c fs')) with (c_parsers c).
  assert (A : forall ps w, attempt_parsers R mk' (with_fields c fs') ps v w = attempt_parsers R mk c ps v w).
  { induction ps as [|p r IH]; intros w1; [reflexivity|]. cbn [attempt_parsers]. rewrite (twins_run_parser c fs' H mk mk' HM).
    destruct (run_parser R mk c p v w1) as [[x|e] w2]; [unfold bind|]; rewrite IH; reflexivity. }
  unfold bind. rewrite A. reflexivity.
Qed.
Lemma twins_call : forall (n n' : option obj -> dict obj -> M W obj) c fs', (forall a kw w, n' a kw w = n a kw w) ->
  forall pos kw w, call_cls R n' (with_fields c fs') pos kw w = call_cls R n c pos kw w.
Proof.
  intros n n' c fs' H pos kw w. unfold call_cls. destruct (dmem "cls" kw); [reflexivity|]. change (c_ty (with_fields c fs')) with (c_ty c). unfold bind.
  destruct pos as [a|], (dget "arg" kw) as [b|]; rewrite ?H; reflexivity.
Qed.
Lemma twins_new : forall c fs', twins (c_fields c) fs' -> forall n a kw w, new R n (with_fields c fs') a kw w = new R n c a kw w.
Proof.
  intros c fs' H. induction n as [|n IH]; intros a kw w; [reflexivity|]. cbn [new]. destruct a as [a|]; [|apply twins_build; exact H].
  change (c_unary (with_fields c fs')) with (c_unary c). change (c_fields (with_fields c fs')) with fs'. destruct (twins_keys _ _ H) as (_ & -> & _). unfold bind.
  assert (C : forall h, catch_parse_failure (parse_with R (call_cls R (new R n (with_fields c fs')) (with_fields c fs') None) (with_fields c fs') a) h w =
    catch_parse_failure (parse_with R (call_cls R (new R n c) c None) c a) h w).
  { intros h. unfold catch_parse_failure. rewrite (twins_parse c fs' H (call_cls R (new R n c) c None)); [reflexivity|]. intros d w1. apply twins_call. exact IH. }
  destruct kw as [|p kw].
  - destruct (c_unary c); [rewrite C; destruct (catch_parse_failure _ _ w) as [[q|e] w1]; [|reflexivity]|unfold ret];
    (destruct (negb _); [reflexivity|]; destruct (required_keys (c_fields c)) as [|k r]; [reflexivity|]; destruct (dmem k []); [reflexivity|]; apply twins_build; exact H).
  - unfold ret. destruct (negb _); [reflexivity|]. destruct (required_keys (c_fields c)) as [|k r]; [reflexivity|]. destruct (dmem k (p :: kw)); [reflexivity|]. apply twins_build. exact H.
Qed.
Lemma twins_construct : forall c fs', twins (c_fields c) fs' -> forall n pos kw w, construct R n (with_fields c fs') pos kw w = construct R n c pos kw w.
Proof. intros c fs' H n pos kw w. unfold construct. apply twins_call. intros. apply twins_new. exact H. Qed.
End Records.

Lemma c170_order_proof : forall {obj ty W} (P : Py obj ty W) d h h' toks toks' f, rearranged h h' -> mixed toks toks' ->
  make_filler P d h (own_only toks) = Ok f ->
  exists g, make_filler P d h' (own_only toks') = Ok g /\ forall x w, call P g x w = call P f x w.
Proof.
  intros obj ty W P d h h' toks toks' f HR HM H. destruct (rearranged_fill P d h h' toks toks' f HR HM H) as (g & E & A). exists g. split; [exact E|]. apply alike_call. exact A.
Qed.

Lemma c170_refused_proof : forall {obj ty W} (P : Py obj ty W) d h h' toks toks', rearranged h h' -> mixed toks toks' ->
  (exists e, make_filler P d h (own_only toks) = Raise e) <-> (exists e, make_filler P d h' (own_only toks') = Raise e).
Proof.
  assert (K : forall obj ty W (P : Py obj ty W) d h h' toks toks', rearranged h h' -> mixed toks toks' ->
    (exists e, make_filler P d h (own_only toks) = Raise e) -> (exists e, make_filler P d h' (own_only toks') = Raise e)).
  { intros obj ty W P d h h' toks toks' HR HM (e & E). destruct (make_filler P d h' (own_only toks')) as [g|e'] eqn:E'; [|eauto].
    destruct (rearranged_fill P d h' h toks' toks g (proj1 rearranged_sym _ _ HR) (mixed_sym _ _ HM) E') as (f & E2 & _). congruence. }
  intros obj ty W P d h h' toks toks' HR HM. split; apply K; try assumption; [apply rearranged_sym; exact HR|apply mixed_sym; exact HM].
Qed.

Lemma c170_record_proof : forall {obj ty W} (R : Rt obj ty W) n c fs', rearranged_fields (rt_py R) (c_fields c) fs' ->
  let c' := with_fields c fs' in
  (forall pos kw w, construct R n c' pos kw w = construct R n c pos kw w) /\
  (forall s maps kw w, from_mapping R n c' s maps kw w = from_mapping R n c s maps kw w) /\
  (forall s x maps kw w, from_instance R n c' s x maps kw w = from_instance R n c s x maps kw w) /\
  (forall s v w, from_json R n c' s v w = from_json R n c s v w) /\
  (forall v w, parse R n c' v w = parse R n c v w).
Proof.
  intros obj ty W R n c fs' H c'. apply rearranged_twins in H. pose proof (twins_construct R c fs' H n) as K. fold c' in K.
  assert (B : forall (m : M W (dict obj)) w, (let* d := m in construct R n c' None d) w = (let* d := m in construct R n c None d) w).
  { intros m w1. unfold bind. destruct (m w1) as [[d|e] w2]; [apply K|reflexivity]. }
  split; [exact K|]. split; [|split; [|split]].
  - intros s maps kw w. unfold from_mapping, from_mapping_with, bind. destruct (chain_map R maps kw w) as [[d|e] w1]; [|reflexivity]. apply B.
  - intros s x maps kw w. unfold from_instance, from_instance_with. change (c_ty c') with (c_ty c). change (c_frozen c') with (c_frozen c).
    destruct (_ && isinstance (rt_py R) x (c_ty c)); [reflexivity|]. unfold c'. rewrite (twins_to_dict R c fs' H). fold c'. unfold bind. destruct (to_dict_of R c x no_args s w) as [[d|e] w1]; [|reflexivity].
    destruct (update_dict R d maps kw w1) as [[d2|e] w2]; [|reflexivity]. apply B.
  - intros s v w. unfold from_json, from_json_with, bind. destruct (json_loads R v w) as [[y|e] w1]; [|reflexivity].
    match goal with |- context [match ?m w1 with _ => _ end] => destruct (m w1) as [[d|e] w2] end; [|reflexivity]. apply B.
  - intros v w. unfold parse. apply (twins_parse R c fs' H). intros d w1. apply K.
Qed.

Definition always (b : dobj) : @token dobj dty demo_state := TCoerce (CGlobal (fun _ => Ok (fun _ => ret b))).
Definition sixth : @token dobj dty rstate := TValid (VGlobal (fun _ => Ok (fun x => if dis x (DInt 5) then ret (DInt 6) else ret x))).
Definition becomes (a b : dobj) : @token dobj dty demo_state :=
  TValid (VGlobal (fun _ => Ok (fun x => if dis x a then ret b else ret x))).

Lemma c170_coercers_refuted_proof : exists (P : Py dobj dty demo_state) h t u f g x y z w,
  make_filler P SCheck (HAnn h [t; u]) [] = Ok f /\ make_filler P SCheck (HAnn h [u; t]) [] = Ok g /\
  is_coercion t = true /\ is_coercion u = true /\ call P f x w = (Ok y, w) /\ call P g x w = (Ok z, w) /\ y <> z.
Proof.
  exists demo0, (HTy TInt), (always (DInt 1)), (always (DInt 2)). do 2 eexists. exists DNone, (DInt 1), (DInt 2), st0.
  repeat (split; [reflexivity|]). discriminate.
Qed.

Lemma c170_validators_refuted_proof : exists (P : Py dobj dty demo_state) h t u f g x y z w,
  make_filler P SCheck (HAnn h [t; u]) [] = Ok f /\ make_filler P SCheck (HAnn h [u; t]) [] = Ok g /\
  is_validation t = true /\ is_validation u = true /\ call P f x w = (Ok y, w) /\ call P g x w = (Ok z, w) /\ y <> z.
Proof.
  exists demo0, (HTy TInt), (becomes (DInt 0) (DInt 1)), (becomes (DInt 1) (DInt 2)). do 2 eexists. exists (DInt 0), (DInt 2), (DInt 1), st0.
  repeat (split; [reflexivity|]). discriminate.
Qed.
