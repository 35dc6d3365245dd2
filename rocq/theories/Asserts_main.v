(** Asserts_main.v -- proofs of the properties stated in Props_Asserts.v: the order of assertions (records/fillers/filler.py:162-238) *)

From Verif Require Import Base Py Select Filler Spec_Filler Classes Spec_Classes Runtime Record Spec_Record Spec_Settle Spec_Wider Spec_Mixed Spec_Repeat Spec_Asserts Demo DemoRt DemoCls.
From Verif Require Import Wider_main Mixed_main Repeat_main.
From Verif Require Record_proofs Dict_proofs Filler_proofs Filler_shape Filler_eqs Filler_main.
Open Scope string_scope.
Open Scope list_scope.

Import Filler_proofs Filler_shape Filler_eqs Wider_main.

Scheme resorted_mut := Induction for resorted Sort Prop
with all_resorted_mut := Induction for all_resorted Sort Prop.
Combined Scheme resorted_both from resorted_mut, all_resorted_mut.

Lemma sa_refl : forall {A W} (r : outcome A * W), same_answer r r.
Proof. intros A W [[y|e] w]; split; reflexivity. Qed.
Lemma sa_eq : forall {A W} (r r' : outcome A * W), r' = r -> same_answer r r'.
Proof. intros A W r r' ->. apply sa_refl. Qed.
Lemma sa_sym : forall {A W} (r r' : outcome A * W), same_answer r r' -> same_answer r' r.
Proof. intros A W [[y|e] w] [[y'|e'] w'] [E F]; cbn in *; try contradiction; split; cbn; congruence. Qed.
Lemma sa_trans : forall {A W} (r1 r2 r3 : outcome A * W), same_answer r1 r2 -> same_answer r2 r3 -> same_answer r1 r3.
Proof. intros A W [[y|e] w] [[y'|e'] w'] [[y2|e2] w2] [E F] [E' F']; cbn in *; try contradiction; split; cbn; congruence. Qed.
Lemma sa_bind : forall {A B W} (m m' : M W A) (k k' : A -> M W B) w, same_answer (m w) (m' w) -> (forall a w1, same_answer (k a w1) (k' a w1)) ->
  same_answer (bind m k w) (bind m' k' w).
Proof.
  intros A B W m m' k k' w [E F] H. unfold bind. destruct (m w) as [[y|e] w1]; destruct (m' w) as [[y'|e'] w2]; cbn in *; try contradiction; subst; [apply H|split; auto].
Qed.

Section Asserts.
Context {obj ty W : Type} (P : Py obj ty W).
Notation token := (@token obj ty W).
Notation hint := (@hint obj ty W).
Notation filler := (@filler obj ty W).
Notation callback := (@callback obj W).
Notation akind := (@akind obj ty).
Notation hollow_parts := (Mixed_main.hollow_parts P).
Notation made := (Mixed_main.made P).
Notation all_made := (Mixed_main.all_made P).
Notation agree := (fun f g : callback => forall x w, same_answer (f x w) (g x w)).

Definition alike (f g : filler) : Prop := is_hollow g = is_hollow f /\ forall x w, same_answer (fill P f x w) (fill P g x w).
Lemma alike_call : forall f g, alike f g -> forall x w, same_answer (call P f x w) (call P g x w).
Proof.
  intros f g [_ H] x w. rewrite !call_eq. destruct (H x w) as [E F]. destruct (fill P f x w) as [[[y k]|e] w1]; destruct (fill P g x w) as [[[y' k']|e'] w2]; cbn in *; try contradiction; split; cbn; congruence.
Qed.
Lemma alike_refl : forall f, alike f f.
Proof. intros f. split; [reflexivity|]. intros x w. apply sa_refl. Qed.

Lemma reordered_empty : forall ts us, reordered P ts us -> match ts, us with [], [] => True | _ :: _, _ :: _ => True | _, _ => False end.
Proof.
  intros ts us H. induction H as [l l' H|t l l' _ IH|t u l _ _|l l' _ IH|l1 l2 l3 _ I1 _ I2]; try exact I.
  - apply (repeated_empty P). exact H.
  - destruct l, l'; auto.
  - destruct l1, l2, l3; auto; contradiction.
Qed.
Lemma reordered_app : forall a a' b b' : list token, reordered P a a' -> reordered P b b' -> reordered P (a ++ b) (a' ++ b').
Proof.
  intros a a' b b' HA HB. apply ro_again with (a ++ b').
  - clear HA. induction a as [|t r IH]; [exact HB|]. apply ro_behind. exact IH.
  - clear HB. induction HA as [l l' H|t l l' H IH|t u l H1 H2|l l' H IH|l1 l2 l3 _ I1 _ I2]; cbn;
      [apply ro_repeated, repeated_app; [exact H|apply rp_same]|constructor; exact IH|apply ro_assertions; assumption|apply ro_sym; exact IH|eapply ro_again; eassumption].
Qed.

Lemma reordered_coercers : forall (k : akind) ts us, reordered P ts us -> both crep (tok_coercers P k ts) (tok_coercers P k us).
Proof.
  intros k ts us H. induction H as [l l' H|t l l' _ IH|t u l H1 H2|l l' _ IH|l1 l2 l3 _ I1 _ I2].
  - apply (repeated_coercers P). exact H.
  - destruct t; cbn; try exact IH. destruct (get_coercer P k c) as [f|e]; cbn; [|exact I].
    destruct (tok_coercers P k l), (tok_coercers P k l'); cbn in *; auto. constructor. exact IH.
  - destruct t, u; try contradiction. cbn. apply both_refl. constructor.
  - destruct (tok_coercers P k l), (tok_coercers P k l'); cbn in *; auto. apply cr_sym. exact IH.
  - destruct (tok_coercers P k l1), (tok_coercers P k l2), (tok_coercers P k l3); cbn in *; auto; try contradiction. eapply cr_again; eassumption.
Qed.

Definition agree_run (vs us : list callback) : Prop := forall x w, same_answer (run_validators vs x w) (run_validators us x w).
Lemma agree_run_app : forall vs us f g, agree_run vs us -> agree f g -> agree_run (vs ++ [f]) (us ++ [g]).
Proof.
  intros vs us f g H E x w. assert (A : forall l (h : callback) x w, run_validators (l ++ [h]) x w = bind (run_validators l x) h w).
  { clear. induction l as [|v r IH]; intros h x w; cbn.
    - unfold bind, ret. destruct (h x w) as [[y|e] w1]; reflexivity.
    - unfold bind. destruct (v x w) as [[y|e] w1]; [|reflexivity]. rewrite IH. reflexivity. }
  rewrite !A. apply sa_bind; [apply H|exact E].
Qed.
Lemma agree_run_more : forall more vs us, agree_run vs us -> agree_run (vs ++ more) (us ++ more).
Proof.
  induction more as [|f r IH]; intros vs us H; [rewrite !app_nil_r; exact H|].
  change (f :: r) with ([f] ++ r). rewrite !app_assoc. apply IH. apply agree_run_app; [exact H|intros x w; apply sa_refl].
Qed.

Lemma reordered_validators : forall (k : akind) ts us, reordered P ts us -> both agree_run (tok_validators P k ts) (tok_validators P k us).
Proof.
  intros k ts us H. induction H as [l l' H|t l l' _ IH|t u l H1 H2|l l' _ IH|l1 l2 l3 _ I1 _ I2].
  - pose proof (repeated_validators P k l l' H) as R. destruct (tok_validators P k l), (tok_validators P k l'); cbn in *; auto. intros x w. apply sa_eq. apply R.
  - destruct t; cbn; try exact IH. destruct (get_validator P k v) as [f|e]; cbn; [|exact I].
    destruct (tok_validators P k l), (tok_validators P k l'); cbn in *; auto. intros x w. cbn. apply sa_bind; [apply sa_refl|exact IH].
  - destruct t as [| |v|], u as [| |v'|]; try contradiction. cbn in *. specialize (H1 k). specialize (H2 k).
    destruct (get_validator P k v) as [f|e]; destruct (get_validator P k v') as [g|e']; cbn; try exact I; try (destruct (tok_validators P k l); exact I).
    destruct (tok_validators P k l) as [vs|]; cbn; [|exact I].
    destruct (H1 f eq_refl) as (p & P1 & P2). destruct (H2 g eq_refl) as (q & Q1 & Q2). intros x w. cbn. unfold bind. rewrite P2, Q2.
    destruct (p x) as [e1|] eqn:E1; destruct (q x) as [e2|] eqn:E2; rewrite ?P2, ?Q2, ?E1, ?E2; try (apply sa_refl).
    split; [reflexivity|]. cbn. rewrite (P1 _ _ E1), (Q1 _ _ E2). reflexivity.
  - destruct (tok_validators P k l), (tok_validators P k l'); cbn in *; auto. intros x w. apply sa_sym. apply IH.
  - destruct (tok_validators P k l1), (tok_validators P k l2), (tok_validators P k l3); cbn in *; auto; try contradiction. intros x w. eapply sa_trans; [apply I1|apply I2].
Qed.

Lemma reordered_style : forall d ts us, reordered P ts us -> eff_style d us = eff_style d ts.
Proof.
  assert (K : forall ts us, reordered P ts us -> forall a : style, fold_left (fun acc (t : token) => match t with TStyle s => s | _ => acc end) us a =
    fold_left (fun acc (t : token) => match t with TStyle s => s | _ => acc end) ts a).
  { intros ts us H. induction H as [l l' H|t l l' _ IH|t u l H1 H2|l l' _ IH|l1 l2 l3 _ I1 _ I2]; intros a; cbn; try reflexivity; auto.
    - apply (repeated_fold P). exact H.
    - destruct t, u; try contradiction; reflexivity.
    - rewrite I2. apply I1. }
  intros d ts us H. unfold eff_style, last_style. rewrite (K ts us H). reflexivity.
Qed.

Definition matching (a b : @afiller obj ty W) : Prop :=
  a_kind b = a_kind a /\ a_style b = a_style a /\ crep (a_coercers a) (a_coercers b) /\ agree_run (a_validators a) (a_validators b).

Lemma matching_fill : forall a b, matching a b -> forall x w, same_answer (afill P a x w) (afill P b x w).
Proof.
  intros a b (K & S & C & V) x w. unfold afill. rewrite K, S. apply sa_bind; [apply sa_eq, (crep_phase P); exact C|]. intros p w1. apply sa_bind; [apply V|]. intros y w2. apply sa_refl.
Qed.
Lemma matching_add : forall a b f g, matching a b -> agree f g -> matching (add_validator a f) (add_validator b g).
Proof.
  intros a b f g (K & S & C & V) E. repeat split; cbn; try assumption; apply (agree_run_app _ _ f g V E).
Qed.
Lemma matching_hollow : forall a b, matching a b -> ahollow b = ahollow a.
Proof. intros a b (_ & S & _). unfold ahollow. rewrite S. reflexivity. Qed.

Lemma bound_matching : forall d (k : akind) own own' pre pre' a1 a2, reordered P own own' -> reordered P pre pre' ->
  aapplys P (mk_afiller k own) pre = Ok a1 -> abind P d a1 = Ok a2 ->
  exists b1 b2, aapplys P (mk_afiller k own') pre' = Ok b1 /\ abind P d b1 = Ok b2 /\ matching a2 b2.
Proof.
  intros d k own own' pre pre' a1 a2 HO HP H1 H2. destruct (bound_afiller P d pre k own a1 a2 H1 H2) as (cs & vs & HC & HV & E & HH & HS).
  pose proof (reordered_app _ _ _ _ HP HO) as HR. pose proof (reordered_style d _ _ HR) as ES.
  pose proof (reordered_coercers k _ _ HR) as KC. pose proof (reordered_validators k _ _ HR) as KV. rewrite HC in KC. rewrite HV in KV.
  destruct (tok_coercers P k (pre' ++ own')) as [cs'|] eqn:HC'; [|contradiction]. destruct (tok_validators P k (pre' ++ own')) as [vs'|] eqn:HV'; [|contradiction]. cbn in KC, KV.
  pose proof (bound_fwd P d pre' k own' cs' vs' HC' HV') as B. cbv zeta in B. rewrite ES in B.
  assert (N1 : style_eqb (eff_style d (pre ++ own)) SHollow && negb (match cs' with [] => true | _ => false end) = false).
  { destruct (style_eqb_spec (eff_style d (pre ++ own)) SHollow) as [X|]; [|reflexivity]. apply HH in X. subst cs. apply crep_empty in KC. destruct cs'; [reflexivity|contradiction]. }
  assert (N2 : style_eqb (eff_style d (pre ++ own)) SStrict && kind_abstract P k = false).
  { destruct (style_eqb_spec (eff_style d (pre ++ own)) SStrict) as [X|]; [|reflexivity]. rewrite (HS X). reflexivity. }
  rewrite N1, N2 in B. set (s := eff_style d (pre ++ own)) in *.
  assert (B' : (do b1 <- aapplys P (mk_afiller k own') pre'; abind P d b1) = Ok (AF k own' s cs' (vs' ++ lit_validators P k s) true)) by (destruct k; exact B).
  destruct (aapplys P (mk_afiller k own') pre') as [b1|e]; [|discriminate]. cbn in B'. exists b1. eexists. split; [reflexivity|]. split; [exact B'|].
  rewrite E. split; [reflexivity|]. split; [reflexivity|]. split; [exact KC|]. cbn. apply agree_run_more. exact KV.
Qed.


Lemma mapM_agree : forall f g : callback, agree f g -> forall l w, same_answer (mapM f l w) (mapM g l w).
Proof.
  intros f g E. induction l as [|e r IH]; intros w; [apply sa_refl|]. cbn. apply sa_bind; [apply E|]. intros y w1. apply sa_bind; [apply IH|]. intros z w2. apply sa_refl.
Qed.
Lemma iter_ext : forall rk (f g : callback), agree f g -> agree (iter_validator P rk f) (iter_validator P rk g).
Proof.
  intros rk f g E x w. unfold iter_validator. destruct (elems P x) as [l|]; [|apply sa_refl]. generalize (@nil obj) as done. revert w.
  induction l as [|e r IH]; intros w done; [apply sa_refl|]. cbn. apply sa_bind; [apply E|]. intros y w1. destruct (py_is P y e); [apply IH|].
  apply sa_bind; [apply mapM_agree; exact E|]. intros z w2. apply sa_refl.
Qed.
Lemma fill_zip_agree : forall fs gs : list callback, Forall2 agree fs gs -> forall l w, same_answer (fill_zip fs l w) (fill_zip gs l w).
Proof.
  intros fs gs H. induction H as [|f g fs gs E _ IH]; intros [|e r] w; try apply sa_refl. cbn. apply sa_bind; [apply E|]. intros y w1. apply sa_bind; [apply IH|]. intros z w2. apply sa_refl.
Qed.
Lemma tuple_ext : forall fs gs : list callback, Forall2 agree fs gs -> agree (tuple_validator P fs) (tuple_validator P gs).
Proof.
  intros fs gs H x w. unfold tuple_validator. destruct (elems P x) as [l|]; [|apply sa_refl]. generalize (@nil obj) as done. revert l w.
  induction H as [|f g fs gs E H IH]; intros [|e r] w done; try apply sa_refl. cbn. apply sa_bind; [apply E|]. intros y w1.
  destruct (py_is P y e); [apply IH|]. apply sa_bind; [apply fill_zip_agree; exact H|]. intros z w2. apply sa_refl.
Qed.
Lemma map_ext2 : forall rk (fk gk fv gv : callback), agree fk gk -> agree fv gv -> agree (map_validator P rk fk fv) (map_validator P rk gk gv).
Proof.
  intros rk fk gk fv gv EK EV x w. unfold map_validator. destruct (items P x) as [l|]; [|apply sa_refl]. apply sa_bind; [|intros a w1; apply sa_refl].
  revert w. induction l as [|[k v] r IH]; intros w; [apply sa_refl|]. cbn. apply sa_bind.
  - unfold fill_pair. apply sa_bind; [apply EK|]. intros y w1. apply sa_bind; [apply EV|]. intros z w2. apply sa_refl.
  - intros y w1. apply sa_bind; [apply IH|]. intros z w2. apply sa_refl.
Qed.
Lemma union_ext : forall (fs gs : list (obj -> M W (obj * tpk))), Forall2 (fun f g => forall x w, same_answer (f x w) (g x w)) fs gs ->
  forall x best key w, same_answer (union_loop fs x best key w) (union_loop gs x best key w).
Proof.
  intros fs gs H. induction H as [|f g fs gs E H IH]; intros x best key w; [apply sa_refl|]. cbn. destruct (E x w) as [E1 E2].
  destruct (f x w) as [[[v k]|e] w1]; destruct (g x w) as [[[v' k']|e'] w2]; cbn in E1, E2; try contradiction; subst.
  - injection E2 as -> ->. destruct (rank_lt k key); [apply IH|]. destruct (rank_eq k key); apply IH.
  - rewrite E2. destruct (is_Exception e) eqn:EE; [|split; cbn; [reflexivity|congruence]].
    destruct best; [destruct H; [split; cbn; [reflexivity|congruence]|apply IH]|apply IH].
Qed.
Lemma alike_calls : forall fs gs, Forall2 alike fs gs -> Forall2 agree (map (call P) fs) (map (call P) gs).
Proof. intros fs gs H. induction H as [|f g fs gs E _ IH]; cbn; constructor; [apply alike_call; exact E|exact IH]. Qed.
Lemma alike_fills : forall fs gs, Forall2 alike fs gs -> Forall2 (fun f g => forall x w, same_answer (f x w) (g x w)) (map (fill P) fs) (map (fill P) gs).
Proof. intros fs gs H. induction H as [|f g fs gs [_ E] _ IH]; cbn; constructor; [exact E|exact IH]. Qed.
Lemma alike_hollow : forall fs gs, Forall2 alike fs gs -> forallb is_hollow gs = forallb is_hollow fs /\ List.length gs = List.length fs.
Proof. intros fs gs H. induction H as [|f g fs gs [E _] _ [IH IL]]; cbn; [auto|]. rewrite E, IH, IL. auto. Qed.

Lemma resorted_made :
  (forall h h', resorted P h h' -> forall args args' pre pre' d f, reordered P args args' -> reordered P pre pre' ->
     made d args pre h = Ok f -> exists g, made d args' pre' h' = Ok g /\ alike f g) /\
  (forall hs hs', all_resorted P hs hs' -> forall pre pre' d fs, reordered P pre pre' ->
     all_made d pre hs = Ok fs -> exists gs, all_made d pre' hs' = Ok gs /\ Forall2 alike fs gs).
Proof.
  apply (resorted_both _ _ _ P); unfold made, all_made.
  - (* simple *)
    intros h HS args args' pre pre' d f HA HP H.
    assert (LEAF : forall k, (do s <- Ok (FAnn (mk_afiller k args)); bind_with P d pre s) = Ok f -> exists g, (do s <- Ok (FAnn (mk_afiller k args')); bind_with P d pre' s) = Ok g /\ alike f g).
    { intros k E. cbn in E |- *. oinv E. oinv E. injection E as <-. destruct (bound_matching d k args args' pre pre' _ _ HA HP Ea Ea0) as (b1 & b2 & -> & B2 & M). cbn. rewrite B2. cbn.
      eexists. split; [reflexivity|]. split; [cbn; apply matching_hollow; exact M|]. intros x w. cbn. apply matching_fill. exact M. }
    assert (DUMB : (do s <- dumb args; bind_with P d pre s) = Ok f -> exists g, (do s <- dumb args'; bind_with P d pre' s) = Ok g /\ alike f g).
    { intros E. pose proof (reordered_empty _ _ HA) as LA. pose proof (reordered_empty _ _ HP) as LP.
      destruct args as [|]; [|discriminate]. destruct args' as [|]; [|contradiction]. cbn in E |- *. destruct pre as [|]; [|discriminate]. destruct pre' as [|]; [|contradiction].
      exists f. split; [exact E|]. apply alike_refl. }
    destruct h; try discriminate; try (apply LEAF; exact H); try (apply DUMB; exact H).
    (* Type *)
    cbn in H |- *. oinv H. oinv H. injection H as <-. destruct (bound_matching d _ args args' pre pre' _ _ HA HP Ha Ha0) as (b1 & b2 & -> & B2 & M). cbn. rewrite B2. cbn.
    eexists. split; [reflexivity|]. rewrite (matching_hollow _ _ M). destruct (ahollow a0) eqn:EH.
    + split; [cbn; apply matching_hollow; exact M|]. intros x w. cbn. apply matching_fill. exact M.
    + assert (M2 := matching_add _ _ (type_validator P base) (type_validator P base) M (fun x w => sa_refl _)).
      split; [cbn; apply matching_hollow in M2; exact M2|]. intros x w. cbn. apply matching_fill. exact M2.
  - (* Annotated *)
    intros h h' ts us HT _ IH args args' pre pre' d f HA HP H. cbn in *. apply (IH (ts ++ args) (us ++ args') pre pre' d f); [apply reordered_app; assumption|exact HP|exact H].
  - (* NewType *)
    intros h h' HR IH args args' pre pre' d f HA HP H. pose proof (reordered_empty _ _ HA) as LA. pose proof (reordered_empty _ _ HP) as LP.
    destruct HR; try (apply (IH args args' pre pre' d f HA HP); exact H).
    + cbn in H |- *. destruct h; try discriminate; exact (IH args args' pre pre' d f HA HP H).
    + cbn in H |- *. destruct args as [|]; [|discriminate]. destruct args' as [|]; [|contradiction]. cbn in H |- *.
      destruct pre as [|]; [|discriminate]. destruct pre' as [|]; [|contradiction]. exists f. split; [exact H|]. apply alike_refl.
  - (* Union *)
    intros hs hs' HR IH args args' pre pre' d f HA HP H. cbn in *. oinv H. oinv Ha. injection Ha as <-. cbn in H. oinv H. injection H as <-.
    destruct (IH (args ++ pre) (args' ++ pre') d a) as (gs & E & FA); [apply reordered_app; assumption|rewrite Haa; cbn; exact Ha|].
    destruct (mapO (gaf P []) hs') as [ss|e]; [|discriminate]. cbn in E |- *. rewrite E. cbn. eexists. split; [reflexivity|].
    destruct (alike_hollow _ _ FA) as [EH _]. split; [exact EH|]. intros x w. cbn [fill]. rewrite EH. destruct (forallb is_hollow a); [apply sa_refl|].
    apply sa_bind; [apply (union_ext _ _ (alike_fills _ _ FA))|]. intros bk w1. apply sa_refl.
  - (* Tuple[T1, ..., Tn] *)
    intros hs hs' HR IH args args' pre pre' d f HA HP H. cbn in H |- *. oinv H. oinv Ha. injection Ha as <-. cbn in H. oinv H. oinv H. oinv H.
    destruct (bound_matching d _ args args' pre pre' _ _ HA HP Ha Ha0) as (b1 & b2 & B1 & B2 & M).
    destruct (IH [] [] d a2) as (gs & E & FA); [apply ro_repeated, rp_same|rewrite Haa; exact Ha1|].
    destruct (mapO (gaf P []) hs') as [ss|e] eqn:ES; [|discriminate]. cbn in E |- *. rewrite B1. cbn. rewrite B2. cbn. rewrite E. cbn.
    destruct (alike_hollow _ _ FA) as [EH EL]. rewrite EH, (matching_hollow _ _ M).
    assert (LEN : List.length ss = List.length a0) by (rewrite <- (mapO_length _ _ _ E), <- (mapO_length _ _ _ Ha1); exact EL).
    rewrite LEN. set (x1 := if ahollow a1 then a1 else add_validator a1 (len_validator P (List.length a0))) in *.
    set (y1 := if ahollow a1 then b2 else add_validator b2 (len_validator P (List.length a0))) in *.
    assert (M1 : matching x1 y1) by (unfold x1, y1; destruct (ahollow a1); [exact M|apply matching_add; [exact M|intros ? ?; apply sa_refl]]).
    rewrite (matching_hollow _ _ M1).
    destruct (forallb is_hollow a2); [|destruct (ahollow x1); [discriminate|]]; injection H as <-; (eexists; split; [reflexivity|]).
    + split; [cbn; apply matching_hollow; exact M1|]. intros x w. cbn. apply matching_fill. exact M1.
    + assert (M2 := matching_add _ _ _ _ M1 (tuple_ext _ _ (alike_calls _ _ FA))). split; [cbn; apply matching_hollow in M2; exact M2|]. intros x w. cbn. apply matching_fill. exact M2.
  - (* other generics *)
    intros t hs hs' HR IH args args' pre pre' d f HA HP H. cbn in H |- *. oinv H. oinv Ha. injection Ha as <-. cbn in H. oinv H. oinv H. oinv H. injection H as <-.
    destruct (bound_matching d _ args args' pre pre' _ _ HA HP Ha Ha0) as (b1 & b2 & B1 & B2 & M).
    apply hollow_parts in Ha1. destruct Ha1 as [Ha1 HH].
    destruct (IH [] [] d a2) as (gs & E & FA); [apply ro_repeated, rp_same|rewrite Haa; exact Ha1|].
    destruct (alike_hollow _ _ FA) as [EH _]. rewrite HH in EH.
    destruct (mapO (gaf P []) hs') as [ss|e] eqn:ES; [|discriminate]. cbn in E |- *. rewrite B1. cbn. rewrite B2. cbn.
    rewrite (proj2 (hollow_parts d ss gs) (conj E EH)). cbn. eexists. split; [reflexivity|].
    split; [cbn; apply matching_hollow; exact M|]. intros x w. cbn. apply matching_fill. exact M.
  - (* Tuple[T, ...] *)
    intros h h' HR IH args args' pre pre' d f HA HP H. cbn in H |- *. oinv H. oinv Ha. injection Ha as <-. cbn in H. oinv H. oinv H. oinv H.
    destruct (bound_matching d _ args args' pre pre' _ _ HA HP Ha Ha0) as (b1 & b2 & B1 & B2 & M).
    destruct (IH [] [] [] [] d a2) as (g & E & EA); [apply ro_repeated, rp_same|apply ro_repeated, rp_same|rewrite Haa; exact Ha1|].
    pose proof (alike_call _ _ EA) as EC. destruct EA as [EH _].
    destruct (gaf P [] h') as [s|e] eqn:ES; [|discriminate]. cbn in E |- *. rewrite B1. cbn. rewrite B2. cbn. rewrite E. cbn. rewrite EH, (matching_hollow _ _ M).
    destruct (is_hollow a2); [|destruct (ahollow a1); [discriminate|]]; injection H as <-; (eexists; split; [reflexivity|]).
    + split; [cbn; apply matching_hollow; exact M|]. intros x w. cbn. apply matching_fill. exact M.
    + assert (M2 := matching_add _ _ _ _ M (iter_ext RkPlain _ _ EC)). split; [cbn; apply matching_hollow in M2; exact M2|]. intros x w. cbn. apply matching_fill. exact M2.
  - (* iterables *)
    intros rk t h h' HR IH args args' pre pre' d f HA HP H. cbn in H |- *. oinv H. oinv Ha. injection Ha as <-. cbn in H. oinv H. oinv H. oinv H.
    destruct (bound_matching d _ args args' pre pre' _ _ HA HP Ha Ha0) as (b1 & b2 & B1 & B2 & M).
    destruct (IH [] [] [] [] d a2) as (g & E & EA); [apply ro_repeated, rp_same|apply ro_repeated, rp_same|rewrite Haa; exact Ha1|].
    pose proof (alike_call _ _ EA) as EC. destruct EA as [EH _].
    destruct (gaf P [] h') as [s|e] eqn:ES; [|discriminate]. cbn in E |- *. rewrite B1. cbn. rewrite B2. cbn. rewrite E. cbn. rewrite EH, (matching_hollow _ _ M).
    destruct (is_hollow a2); [|destruct (ahollow a1); [discriminate|]]; injection H as <-; (eexists; split; [reflexivity|]).
    + split; [cbn; apply matching_hollow; exact M|]. intros x w. cbn. apply matching_fill. exact M.
    + assert (M2 := matching_add _ _ _ _ M (iter_ext rk _ _ EC)). split; [cbn; apply matching_hollow in M2; exact M2|]. intros x w. cbn. apply matching_fill. exact M2.
  - (* mappings *)
    intros rk t hk hk' hv hv' HRk IHk HRv IHv args args' pre pre' d f HA HP H. cbn in H |- *. oinv H. oinv Ha. oinv Ha. injection Ha as <-. cbn in H. oinv H. oinv H. oinv H. oinv H.
    destruct (bound_matching d _ args args' pre pre' _ _ HA HP Ha Ha0) as (b1 & b2 & B1 & B2 & M).
    destruct (IHk [] [] [] [] d a3) as (gk & E & EA); [apply ro_repeated, rp_same|apply ro_repeated, rp_same|rewrite Haa; exact Ha1|].
    destruct (IHv [] [] [] [] d a4) as (gv & E' & EA'); [apply ro_repeated, rp_same|apply ro_repeated, rp_same|rewrite Haa0; exact Ha2|].
    pose proof (alike_call _ _ EA) as EC. destruct EA as [EH _]. pose proof (alike_call _ _ EA') as EC'. destruct EA' as [EH' _].
    destruct (gaf P [] hk') as [sk|e]; [|discriminate]. destruct (gaf P [] hv') as [sv|e]; [|discriminate]. cbn in E, E' |- *. rewrite B1. cbn. rewrite B2. cbn. rewrite E. cbn. rewrite E'. cbn.
    rewrite EH, EH', (matching_hollow _ _ M).
    destruct (is_hollow a3 && is_hollow a4); [|destruct (ahollow a2); [discriminate|]]; injection H as <-; (eexists; split; [reflexivity|]).
    + split; [cbn; apply matching_hollow; exact M|]. intros x w. cbn. apply matching_fill. exact M.
    + assert (M2 := matching_add _ _ _ _ M (map_ext2 rk _ _ _ _ EC EC')). split; [cbn; apply matching_hollow in M2; exact M2|]. intros x w. cbn. apply matching_fill. exact M2.
  - intros pre pre' d fs HP H. cbn in *. injection H as <-. exists []. split; [reflexivity|constructor].
  - intros h h' hs hs' _ IH _ IHs pre pre' d fs HP H. cbn in H |- *. destruct (gaf P [] h) as [s|e] eqn:E1; [|discriminate]. cbn in H. destruct (mapO (gaf P []) hs) as [ss|e] eqn:E2; [|discriminate]. cbn in H.
    oinv H. oinv H. injection H as <-.
    destruct (IH [] [] pre pre' d a) as (g & G1 & G2); [apply ro_repeated, rp_same|exact HP|rewrite E1; exact Ha|].
    destruct (IHs pre pre' d a0) as (gs & G3 & G4); [exact HP|exact Ha0|].
    destruct (gaf P [] h') as [s'|e]; [|discriminate]. destruct (mapO (gaf P []) hs') as [ss'|e]; [|discriminate]. cbn in G1, G3 |- *. rewrite G1. cbn. rewrite G3. cbn.
    eexists. split; [reflexivity|]. constructor; assumption.
Qed.


Lemma resorted_sym : (forall h h' : hint, resorted P h h' -> resorted P h' h) /\ (forall hs hs' : list hint, all_resorted P hs hs' -> all_resorted P hs' hs).
Proof. apply (resorted_both _ _ _ P); intros; constructor; auto using ro_sym. Qed.

Lemma resorted_fill : forall d h h' toks toks' f, resorted P h h' -> reordered P toks toks' -> make_filler P d h (own_only toks) = Ok f ->
  exists g, make_filler P d h' (own_only toks') = Ok g /\ alike f g.
Proof.
  intros d h h' toks toks' f HR HM H. unfold make_filler, get_filler, bind_filler in H. oinv H. rewrite apply_ops_own_only in H. oinv H.
  rewrite (bind_with_applys P _ _ _ _ _ Ha0), app_nil_r in H.
  destruct (proj1 resorted_made h h' HR [] [] toks toks' d f) as (g & E & A); [apply ro_repeated, rp_same|exact HM|unfold made; rewrite Ha; exact H|].
  exists g. split; [|exact A]. unfold made in E. unfold make_filler, get_filler, bind_filler. destruct (gaf P [] h') as [s|e]; [|discriminate]. cbn in E |- *.
  rewrite apply_ops_own_only. apply bind_with_applys_conv in E. destruct E as (s1 & -> & E). exact E.
Qed.
End Asserts.

Section Records.
Context {obj ty W : Type} (R : Rt obj ty W).
Notation P := (rt_py R).

Definition partner (f f' : @field obj ty W) : Prop := f_name f' = f_name f /\ f_default f' = f_default f /\ f_tags f' = f_tags f /\ forall x w, same_answer (call P (f_filler f) x w) (call P (f_filler f') x w).
Inductive partners : dict (@field obj ty W) -> dict (@field obj ty W) -> Prop :=
| pn_nil : partners [] []
| pn_cons : forall k f f' fs fs', partner f f' -> partners fs fs' -> partners ((k, f) :: fs) ((k, f') :: fs').

Lemma resorted_partners : forall fs fs', resorted_fields P fs fs' -> partners fs fs'.
Proof.
  intros fs fs' H. induction H as [|k f f' fs fs' (A & B & _ & C & d & h & h' & HR & M & M') _ IH]; constructor; [|exact IH]. split; [exact A|]. split; [exact B|]. split; [exact C|].
  destruct (resorted_fill P d h h' [] [] _ HR (ro_repeated _ _ _ (rp_same _ [])) M) as (g & E & AL). cbn in E. rewrite M' in E. injection E as <-. exact (alike_call _ _ _ AL).
Qed.
Lemma partners_get : forall fs fs', partners fs fs' -> forall k,
  match dget k fs, dget k fs' with Some f, Some f' => partner f f' | None, None => True | _, _ => False end.
Proof. intros fs fs' H. induction H as [|k f f' fs fs' HF _ IH]; intro j; cbn; [exact I|]. destruct (String.eqb j k); [exact HF|apply IH]. Qed.
Lemma partners_keys : forall fs fs', partners fs fs' -> required_keys fs' = required_keys fs /\ optional_keys fs' = optional_keys fs.
Proof.
  intros fs fs' H. assert (K : keys fs' = keys fs /\ required_keys fs' = required_keys fs).
  { induction H as [|k f f' fs fs' HF _ [IH1 IH2]]; [auto|]. unfold required_keys, keys in *. cbn.
    destruct HF as (_ & HD & _). assert (E : has_default f' = has_default f) by (unfold has_default; rewrite HD; reflexivity).
    rewrite E. split; [apply (f_equal (cons k)); exact IH1|]. destruct (has_default f); cbn; [exact IH2|apply (f_equal (cons k)); exact IH2]. }
  destruct K as [K1 K2]. split; [assumption|]. unfold optional_keys. rewrite K1, K2. reflexivity.
Qed.
Lemma partners_mem : forall fs fs', partners fs fs' -> forall k, dmem k fs' = dmem k fs.
Proof. intros fs fs' H k. pose proof (partners_get _ _ H k) as G. unfold dmem. destruct (dget k fs), (dget k fs'); tauto. Qed.
Lemma rewrap_exception : forall k e, is_Exception e = true -> is_Exception (rewrap k e) = true.
Proof. intros k e H. unfold rewrap. destruct (exc_ctor (exc_cls e)); [|reflexivity|reflexivity]. exact H. Qed.
Lemma partners_kwargs : forall c fs', partners (c_fields c) fs' -> forall p kw w, same_answer (fill_kwargs R c p kw w) (fill_kwargs R (with_fields c fs') p kw w).
Proof.
  intros c fs' H p. induction kw as [|[k a] r IH]; intros w; [apply sa_refl|]. cbn. pose proof (partners_get _ _ H k) as G.
  destruct (dget k (c_fields c)) as [f|]; destruct (dget k fs') as [f'|]; try (destruct G; fail); [|apply sa_refl].
  destruct G as (_ & _ & _ & G). destruct (G a w) as [G1 G2]. destruct (call P (f_filler f) a w) as [[y|e] w1]; destruct (call P (f_filler f') a w) as [[y'|e'] w2]; cbn in G1, G2; try contradiction; subst.
  - apply sa_bind; [apply IH|]. intros q w1'. apply sa_refl.
  - rewrite G2. destruct (negb (is_Exception e)) eqn:EE; [split; [reflexivity|exact G2]|]. destruct (is_none R p); [|apply sa_refl].
    split; [reflexivity|]. cbn. apply negb_false_iff in EE. rewrite !rewrap_exception; [reflexivity|exact EE|congruence].
Qed.
Lemma partners_defaults : forall c fs', partners (c_fields c) fs' -> forall ks w, fill_defaults (with_fields c fs') ks w = fill_defaults c ks w.
Proof.
  intros c fs' H. induction ks as [|k r IH]; intros w; [reflexivity|]. cbn. pose proof (partners_get _ _ H k) as G.
  unfold bind. destruct (dget k (c_fields c)) as [f|]; destruct (dget k fs') as [f'|]; try (destruct G; fail); [|reflexivity].
  destruct G as (_ & G & _). unfold make_default. rewrite G. destruct (f_default f); cbn; unfold ret, raise; try reflexivity;
  rewrite ?IH; try reflexivity. destruct (f0 w) as [[v|e] w1]; [|reflexivity]. rewrite IH. reflexivity.
Qed.
Lemma partners_build : forall c fs', partners (c_fields c) fs' -> forall p kw w, same_answer (build R c p kw w) (build R (with_fields c fs') p kw w).
Proof.
  intros c fs' H p kw w. unfold build. cbn [with_fields c_fields]. destruct (partners_keys _ _ H) as (-> & ->).
  assert (K : forall l, forallb (fun k => dmem k fs') l = forallb (fun k => dmem k (c_fields c)) l).
  { induction l as [|k r IH]; [reflexivity|]. cbn. rewrite (partners_mem _ _ H), IH. reflexivity. }
  rewrite K. destruct (negb (forallb _ (keys kw))); [apply sa_refl|]. apply sa_bind; [apply partners_kwargs; exact H|]. intros [vs|] w1; [|apply sa_refl].
  destruct (negb (forallb _ _)); [apply sa_refl|]. apply sa_eq. unfold bind. rewrite (partners_defaults c fs' H). reflexivity.
Qed.
Lemma partners_to_dict : forall c fs', partners (c_fields c) fs' -> forall x a s, to_dict_of R (with_fields c fs') x a s = to_dict_of R c x a s.
Proof.
  intros c fs' H x a s. unfold to_dict_of. destruct (partners_keys _ _ H) as (_ & K3).
  assert (E : map (fun kf => (fst kf, real_field (snd kf))) fs' = map (fun kf : string * @field obj ty W => (fst kf, real_field (snd kf))) (c_fields c)).
  { clear K3. induction H as [|k f f' fs fs' (A & B & C & _) _ IH]; [reflexivity|]. cbn. unfold real_field at 1 3. rewrite A, B, C, IH. reflexivity. }
  assert (EX : extraction (with_fields c fs') s = extraction c s).
  { unfold extraction. cbn [with_fields c_fields]. rewrite E. destruct (fst (sel_truth s)); [|reflexivity].
    assert (F : forall l (d : dict (@xfield obj W)), fold_left (fun d k => if dmem k fs' then d else dset k (mock_field k) d) l d = fold_left (fun d k => if dmem k (c_fields c) then d else dset k (mock_field k) d) l d).
    { induction l as [|k r IH]; intros d; [reflexivity|]. cbn. rewrite (partners_mem _ _ H). apply IH. }
    rewrite !F. reflexivity. }
  rewrite EX. unfold missing_ok. cbn [with_fields c_fields]. rewrite K3. reflexivity.
Qed.

Section Factories.
Variables (c : @cls obj ty W) (fs' : dict (@field obj ty W)) (H : partners (c_fields c) fs').
Variables (mk mk' : dict obj -> M W obj) (HM : forall d w, same_answer (mk d w) (mk' d w)).
Notation c' := (with_fields c fs').

Lemma partners_mapping : forall s maps kw w, same_answer (from_mapping_with R mk s maps kw w) (from_mapping_with R mk' s maps kw w).
Proof. intros s maps kw w. unfold from_mapping_with. repeat (apply sa_bind; [apply sa_refl|intros ? ?]); apply HM. Qed.
Lemma partners_json : forall s v w, same_answer (from_json_with R mk s v w) (from_json_with R mk' s v w).
Proof. intros s v w. unfold from_json_with. repeat (apply sa_bind; [apply sa_refl|intros ? ?]); apply HM. Qed.
Lemma partners_instance : forall s x maps kw w, same_answer (from_instance_with R mk c s x maps kw w) (from_instance_with R mk' c' s x maps kw w).
Proof.
  intros s x maps kw w. unfold from_instance_with. change (c_ty c') with (c_ty c). change (c_frozen c') with (c_frozen c).
  destruct (_ && isinstance P x (c_ty c)); [apply sa_refl|]. rewrite (partners_to_dict c fs' H). repeat (apply sa_bind; [apply sa_refl|intros ? ?]); apply HM.
Qed.
Lemma partners_run_parser : forall p v w, same_answer (run_parser R mk c p v w) (run_parser R mk' c' p v w).
Proof. intros p v w. destruct p; cbn; [apply partners_instance|apply partners_json|apply partners_mapping|apply sa_refl]. Qed.

(** the errors of parse itself are the same, or none of them is an Exception *)
Lemma partners_parse : forall v w, same_answer (parse_with R mk c v w) (parse_with R mk' c' v w) /\
  forall e w1 e' w2, parse_with R mk c v w = (Raise e, w1) -> parse_with R mk' c' v w = (Raise e', w2) -> is_ParseFailure e' = is_ParseFailure e.
Proof.
  intros v w. unfold parse_with. change (c_parsers c') with (c_parsers c).
  assert (A : forall ps w, same_answer (attempt_parsers R mk c ps v w) (attempt_parsers R mk' c' ps v w)).
  { induction ps as [|p r IH]; intros w1; [apply sa_refl|]. cbn [attempt_parsers]. destruct (partners_run_parser p v w1) as [E1 E2].
    destruct (run_parser R mk c p v w1) as [[x|e] w2]; destruct (run_parser R mk' c' p v w1) as [[x'|e'] w3]; cbn in E1, E2; try contradiction; subst.
    - apply sa_bind; [apply IH|]. intros xs w4. apply sa_refl.
    - rewrite E2. destruct (is_Exception e) eqn:EE; [apply IH|]. split; [reflexivity|]. cbn. congruence. }
  assert (N : forall (mk : dict obj -> M W obj) c ps w e w1, attempt_parsers R mk c ps v w = (Raise e, w1) -> is_Exception e = false).
  { clear. intros mk c. induction ps as [|p r IH]; intros w e w1 E; [discriminate|]. cbn [attempt_parsers] in E.
    destruct (run_parser R mk c p v w) as [[x|e0] w2].
    - unfold bind in E. destruct (attempt_parsers R mk c r v w2) as [[xs|e1] w3] eqn:E3; [discriminate|]. injection E as <- <-. eapply IH. exact E3.
    - destruct (is_Exception e0) eqn:EE; [eapply IH; exact E|]. injection E as <- <-. exact EE. }
  assert (PF : forall e, is_Exception e = false -> is_ParseFailure e = false).
  { intros e HE. destruct (is_ParseFailure e) eqn:X; [|reflexivity]. apply Record_proofs.ParseFailure_Exception in X. congruence. }
  split; [apply sa_bind; [apply A|intros xs w1; apply sa_refl]|].
  intros e w1 e' w2 E E'. unfold bind in E, E'. destruct (A (c_parsers c) w) as [A1 A2].
  destruct (attempt_parsers R mk c (c_parsers c) v w) as [[xs|f] w3] eqn:F; destruct (attempt_parsers R mk' c' (c_parsers c) v w) as [[xs'|f'] w4] eqn:F'; cbn in A1, A2; try contradiction; subst.
  - rewrite E in E'. injection E' as <- _. reflexivity.
  - injection E as <- _. injection E' as <- _. rewrite (PF _ (N _ _ _ _ _ _ F)), (PF _ (N _ _ _ _ _ _ F')). reflexivity.
Qed.
End Factories.

Lemma partners_call : forall (n n' : option obj -> dict obj -> M W obj) c fs', (forall a kw w, same_answer (n a kw w) (n' a kw w)) ->
  forall pos kw w, same_answer (call_cls R n c pos kw w) (call_cls R n' (with_fields c fs') pos kw w).
Proof.
  intros n n' c fs' H pos kw w. unfold call_cls. destruct (dmem "cls" kw); [apply sa_refl|]. change (c_ty (with_fields c fs')) with (c_ty c).
  apply sa_bind; [|intros r w1; apply sa_refl]. destruct pos as [a|], (dget "arg" kw) as [b|]; try apply H; apply sa_refl.
Qed.
Lemma partners_new : forall c fs', partners (c_fields c) fs' -> forall n a kw w, same_answer (new R n c a kw w) (new R n (with_fields c fs') a kw w).
Proof.
  intros c fs' H. induction n as [|n IH]; intros a kw w; [apply sa_refl|]. cbn [new]. destruct a as [a|]; [|apply partners_build; exact H].
  change (c_unary (with_fields c fs')) with (c_unary c). change (c_fields (with_fields c fs')) with fs'. destruct (partners_keys _ _ H) as (-> & _).
  assert (C : forall h, (forall e e' w, is_Exception e' = is_Exception e -> same_answer (h e w) (h e' w)) -> same_answer (catch_parse_failure (parse_with R (call_cls R (new R n c) c None) c a) h w)
    (catch_parse_failure (parse_with R (call_cls R (new R n (with_fields c fs')) (with_fields c fs') None) (with_fields c fs') a) h w)).
  { intros h HH. unfold catch_parse_failure.
    destruct (partners_parse c fs' H (call_cls R (new R n c) c None) (call_cls R (new R n (with_fields c fs')) (with_fields c fs') None) (fun d w => partners_call _ _ c fs' IH None d w) a w) as [[A1 A2] B].
    destruct (parse_with R (call_cls R (new R n c) c None) c a w) as [[x|e] w1]; destruct (parse_with R _ (with_fields c fs') a w) as [[x'|e'] w2]; cbn in A1, A2; try contradiction; subst; [apply sa_refl|].
    specialize (B _ _ _ _ eq_refl eq_refl). rewrite B. destruct (is_ParseFailure e); [apply HH; exact A2|split; [reflexivity|exact A2]]. }
  apply sa_bind.
  - destruct kw; [|apply sa_refl]. destruct (c_unary c); [apply C|apply sa_refl]. intros e e' w1 HE. destruct (Nat.eqb _ 1); [apply sa_refl|split; [reflexivity|exact HE]].
  - intros q w1. destruct (negb _); [apply sa_refl|]. destruct (required_keys (c_fields c)) as [|k r]; [apply sa_refl|]. destruct (dmem k kw); [apply sa_refl|]. apply partners_build. exact H.
Qed.
Lemma partners_construct : forall c fs', partners (c_fields c) fs' -> forall n pos kw w, same_answer (construct R n c pos kw w) (construct R n (with_fields c fs') pos kw w).
Proof. intros c fs' H n pos kw w. unfold construct. apply partners_call. intros. apply partners_new. exact H. Qed.
End Records.

Lemma c174_assertions_proof : forall {obj ty W} (P : Py obj ty W) d h h' toks toks' f, resorted P h h' -> reordered P toks toks' ->
  make_filler P d h (own_only toks) = Ok f ->
  exists g, make_filler P d h' (own_only toks') = Ok g /\ forall x w, same_answer (call P f x w) (call P g x w).
Proof.
  intros obj ty W P d h h' toks toks' f HR HM H. destruct (resorted_fill P d h h' toks toks' f HR HM H) as (g & E & A). exists g. split; [exact E|]. exact (alike_call P _ _ A).
Qed.

Lemma c174_refused_proof : forall {obj ty W} (P : Py obj ty W) d h h' toks toks', resorted P h h' -> reordered P toks toks' ->
  (exists e, make_filler P d h (own_only toks) = Raise e) <-> (exists e, make_filler P d h' (own_only toks') = Raise e).
Proof.
  assert (K : forall obj ty W (P : Py obj ty W) d h h' toks toks', resorted P h h' -> reordered P toks toks' ->
    (exists e, make_filler P d h (own_only toks) = Raise e) -> (exists e, make_filler P d h' (own_only toks') = Raise e)).
  { intros obj ty W P d h h' toks toks' HR HM (e & E). destruct (make_filler P d h' (own_only toks')) as [g|e'] eqn:E'; [|eauto].
    destruct (resorted_fill P d h' h toks' toks g (proj1 (resorted_sym P) _ _ HR) (ro_sym _ _ _ HM) E') as (f & E2 & _). congruence. }
  intros obj ty W P d h h' toks toks' HR HM. split; apply K; try assumption; [apply resorted_sym; exact HR|apply ro_sym; exact HM].
Qed.

Lemma c174_record_proof : forall {obj ty W} (R : Rt obj ty W) n c fs', resorted_fields (rt_py R) (c_fields c) fs' ->
  let c' := with_fields c fs' in
  (forall pos kw w, same_answer (construct R n c pos kw w) (construct R n c' pos kw w)) /\
  (forall s maps kw w, same_answer (from_mapping R n c s maps kw w) (from_mapping R n c' s maps kw w)) /\
  (forall s x maps kw w, same_answer (from_instance R n c s x maps kw w) (from_instance R n c' s x maps kw w)) /\
  (forall s v w, same_answer (from_json R n c s v w) (from_json R n c' s v w)) /\
  (forall v w, same_answer (parse R n c v w) (parse R n c' v w)).
Proof.
  intros obj ty W R n c fs' H c'. apply resorted_partners in H. pose proof (partners_construct R c fs' H n) as K. fold c' in K.
  split; [exact K|]. split; [|split; [|split]].
  - apply partners_mapping. apply K.
  - apply (partners_instance R c fs' H). apply K.
  - apply partners_json. apply K.
  - intros v w. apply (partners_parse R c fs' H). apply K.
Qed.

(** an assertion that refuses [a] with the error [e] *)
Definition refuses_with (a : dobj) (e : exc) : @token dobj dty demo_state :=
  TValid (VGlobal (fun _ => Ok (fun x w => (match (if dis x a then Some e else None) with None => Ok x | Some e => Raise e end, w)))).

Lemma refuses_assertion : forall a e, is_Exception e = true -> assertion demo0 (refuses_with a e).
Proof.
  intros a e HE k f E. cbn in E. injection E as <-. exists (fun x => if dis x a then Some e else None). split; [|reflexivity].
  intros x e' EE. destruct (dis x a); [injection EE as <-; exact HE|discriminate].
Qed.

Lemma c174_error_refuted_proof : exists (P : Py dobj dty demo_state) h t u f g x e e' w, assertion P t /\ assertion P u /\
  make_filler P SCheck (HAnn h [t; u]) [] = Ok f /\ make_filler P SCheck (HAnn h [u; t]) [] = Ok g /\
  call P f x w = (Raise e, w) /\ call P g x w = (Raise e', w) /\ exc_cls e <> exc_cls e'.
Proof.
  exists demo0, (HTy TInt), (refuses_with (DInt 1) (mkexc TypeError "")), (refuses_with (DInt 1) (mkexc ValueError "")). do 2 eexists. exists (DInt 1). do 2 eexists. exists st0.
  split; [apply refuses_assertion; reflexivity|]. split; [apply refuses_assertion; reflexivity|]. repeat (split; [reflexivity|]). discriminate.
Qed.

Lemma c174_validator_refuted_proof : exists (P : Py dobj dty demo_state) h t u f g x y e w, assertion P t /\ settled P u /\ is_validation u = true /\
  make_filler P SCheck (HAnn h [t; u]) [] = Ok f /\ make_filler P SCheck (HAnn h [u; t]) [] = Ok g /\
  call P f x w = (Raise e, w) /\ call P g x w = (Ok y, w).
Proof.
  exists demo0, (HTy TInt), (refuses_with (DInt 0) (mkexc ValueError "")), (becomes (DInt 0) (DInt 1)). do 2 eexists. exists (DInt 0), (DInt 1). eexists. exists st0.
  split; [apply refuses_assertion; reflexivity|]. split.
  - intros k f E. cbn in E. injection E as <-. intros x w y w1 EE. cbn in EE |- *. destruct (dis x (DInt 0)) eqn:D; cbv in EE; injection EE as <- <-; [reflexivity|rewrite D; reflexivity].
  - repeat (split; [reflexivity|]). reflexivity.
Qed.

Definition refuses_here (a : dobj) (e : exc) : @token dobj dty rstate :=
  TValid (VGlobal (fun _ => Ok (fun x w => (match (if dis x a then Some e else None) with None => Ok x | Some e => Raise e end, w)))).
