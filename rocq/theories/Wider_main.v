(** Wider_main.v -- proofs of the properties stated in Props_Wider.v: more coercers and fewer assertions (Filler.fill) *)

From Verif Require Import Base Py Select Filler Spec_Filler Classes Spec_Classes Runtime Record Spec_Record Spec_Settle Spec_Wider Demo DemoRt DemoCls.
From Verif Require Record_proofs Dict_proofs Inst_proofs Filler_proofs Filler_sound Filler_inv Filler_shape Filler_eqs Filler_leaf Filler_kind Filler_decl Filler_main Props_Filler Settle_main.
Open Scope string_scope.
Open Scope list_scope.

Import Filler_proofs Filler_sound Filler_shape Filler_eqs Filler_leaf Filler_kind Filler_decl.
Scheme wider_ind2 := Minimality for wider Sort Prop
with all_wider_ind2 := Minimality for all_wider Sort Prop.
Combined Scheme wider_mut from wider_ind2, all_wider_ind2.
Section Lemmas.
Context {obj ty W : Type} (P : Py obj ty W).
Notation token := (@token obj ty W).
Notation hint := (@hint obj ty W).
Notation filler := (@filler obj ty W).
Notation callback := (@callback obj W).
Notation akind := (@akind obj ty).

(** only the tokens of the kind matter *)
Lemma coercers_filter : forall (k : akind) ts, tok_coercers P k ts = tok_coercers P k (coercions_of ts).
Proof. intros k. induction ts as [|[s|c|v|] r IH]; cbn; try exact IH; [reflexivity|]. rewrite IH. reflexivity. Qed.

Lemma validators_filter : forall (k : akind) ts, tok_validators P k ts = tok_validators P k (validations_of ts).
Proof. intros k. induction ts as [|[s|c|v|] r IH]; cbn; try exact IH; [reflexivity|]. rewrite IH. reflexivity. Qed.

Lemma style_filter : forall ts a,
  fold_left (fun acc (t : token) => match t with TStyle s => s | _ => acc end) ts a =
  fold_left (fun acc (t : token) => match t with TStyle s => s | _ => acc end) (styles_of ts) a.
Proof. induction ts as [|[s|c|v|] r IH]; intros a; cbn; try apply IH; reflexivity. Qed.

Lemma generous_style : forall d (ts us : list token), generous ts us -> eff_style d us = eff_style d ts.
Proof. intros d ts us (H & _). unfold eff_style, last_style. rewrite (style_filter us), (style_filter ts), H. reflexivity. Qed.

Lemma generous_coercers : forall (k : akind) (ts us : list token) cs cs', generous ts us ->
  tok_coercers P k ts = Ok cs -> tok_coercers P k us = Ok cs' -> exists more, cs' = cs ++ more.
Proof.
  intros k ts us cs cs' (_ & (more & HM) & _) H1 H2. rewrite coercers_filter in H1, H2. rewrite HM in H2.
  apply tok_coercers_split in H2. destruct H2 as (c1 & c2 & E1 & E2 & ->). rewrite H1 in E1. injection E1 as <-. eauto.
Qed.

(** leaving out validators that are tests keeps what succeeds *)
Lemma generous_validators : forall (k : akind) ts us, fewer_tests ts us -> forall vs vs',
  tok_validators P k ts = Ok vs -> tok_validators P k us = Ok vs' ->
  forall z w y w', run_validators vs z w = (Ok y, w') -> run_validators vs' z w = (Ok y, w').
Proof.
  intros k ts us H. induction H as [|t ts us H IH|t ts us HT H IH]; intros vs vs' H1 H2 z w y w' HR.
  - congruence.
  - destruct t as [s|c|v|]; cbn in H1, H2; try (eapply IH; eassumption).
    oinv H1. oinv H1. injection H1 as <-. rewrite H1a in H2. cbn in H2. oinv H2. injection H2 as <-.
    cbn in *. unfold bind in *. destruct (a z w) as [[u|e] w1]; [|discriminate]. eapply IH; eauto.
  - destruct t as [s|c|v|]; cbn in H1; try (eapply IH; eassumption).
    oinv H1. oinv H1. injection H1 as <-. destruct v as [g|]; [|discriminate]. cbn in H1a, HT.
    destruct (HT _ _ H1a) as (p & Hp). cbn in HR. unfold bind in HR. rewrite Hp in HR. destruct (p z); [discriminate|]. eapply IH; eauto.
Qed.

Lemma more_coercers : forall k s more cs x w y w', cs <> [] -> run_coercers P k s cs x w = (Ok y, w') ->
  run_coercers P k s (cs ++ more) x w = (Ok y, w').
Proof.
  intros k s more. induction cs as [|c r IH]; intros x w y w' N H; [congruence|]. cbn in *.
  destruct (c x w) as [[z|e] w1].
  - destruct (coerced_ok s (type_check P k z w1)); [assumption|].
    destruct r as [|c2 r]; [discriminate|]. cbn [app]. apply IH; [discriminate|assumption].
  - destruct r as [|c2 r]; [rewrite andb_false_r in H; discriminate|]. rewrite andb_true_r in H. cbn [app]. rewrite andb_true_r.
    destruct (is_Exception e); [|discriminate]. apply IH; [discriminate|assumption].
Qed.

Lemma more_phase : forall k s cs more x w y w', type_phase P k s cs x w = (Ok y, w') ->
  type_phase P k s (cs ++ more) x w = (Ok y, w').
Proof.
  intros k s cs more x w y w' H.
  assert (C : (match cs with [] => raise (mkexc TypeError "failed type checking") | _ => let* y := run_coercers P k s cs x in ret (y, PCoerce) end) w = (Ok y, w') ->
              (match cs ++ more with [] => raise (mkexc TypeError "failed type checking") | _ => let* y := run_coercers P k s (cs ++ more) x in ret (y, PCoerce) end) w = (Ok y, w')).
  { destruct cs as [|c r]; [discriminate|]. intro HC. change ((c :: r) ++ more) with (c :: (r ++ more)) at 1. cbn [app].
    unfold bind in *. destruct (run_coercers P k s (c :: r) x w) as [[z|e] w1] eqn:E; [|discriminate].
    pose proof (more_coercers k s more (c :: r) x w z w1 ltac:(discriminate) E) as E2. cbn [app] in E2. rewrite E2. exact HC. }
  unfold type_phase in *. destruct s; try assumption; destruct (type_check P k x w); try (apply C; assumption); try assumption.
Qed.

Lemma more_afill : forall k toks toks' s cs more vs vs' b b' x w y w',
  (forall z w y w', run_validators vs z w = (Ok y, w') -> run_validators vs' z w = (Ok y, w')) ->
  afill P (AF k toks s cs vs b) x w = (Ok y, w') -> afill P (AF k toks' s (cs ++ more) vs' b') x w = (Ok y, w').
Proof.
  intros k toks toks' s cs more vs vs' b b' x w y w' HV H. unfold afill in *. cbn [a_kind a_style a_coercers a_validators] in *. unfold bind in *.
  destruct (type_phase P k s cs x w) as [[[z q]|e] w1] eqn:E; [|discriminate]. rewrite (more_phase _ _ _ more _ _ _ _ E). cbn [fst snd] in *.
  destruct (run_validators vs z w1) as [[u|e] w2] eqn:EV; [|discriminate]. rewrite (HV _ _ _ _ EV). exact H.
Qed.

Lemma with_inner : forall vs vs' inner, (forall z w y w', run_validators vs z w = (Ok y, w') -> run_validators vs' z w = (Ok y, w')) ->
  forall z (w : W) (y : obj) w', run_validators (vs ++ inner) z w = (Ok y, w') -> run_validators (vs' ++ inner) z w = (Ok y, w').
Proof.
  intros vs vs' inner H z w y w' HR. rewrite run_validators_app in *. unfold bind in *.
  destruct (run_validators vs z w) as [[u|e] w1] eqn:E; [|discriminate]. rewrite (H _ _ _ _ E). exact HR.
Qed.

Lemma fill_call : forall f g, (forall x w y w', fill P f x w = (Ok y, w') -> fill P g x w = (Ok y, w')) -> extends (call P f) (call P g).
Proof.
  intros f g H x w y w' HC. rewrite call_eq in *. destruct (fill P f x w) as [[[z q]|e] w1] eqn:E; [|discriminate].
  rewrite (H _ _ _ _ E). exact HC.
Qed.

Lemma leaf_wider : forall h k d ts us f g, leaf_kind P h = Some k -> generous ts us ->
  make_filler P d (HAnn h ts) [] = Ok f -> make_filler P d (HAnn h us) [] = Ok g -> extends (call P f) (call P g).
Proof.
  intros h k d ts us f g HK HG HF HG2.
  destruct (leaf_make P _ _ _ _ _ _ HK HF) as (cs & vs & C & V & -> & _).
  destruct (leaf_make P _ _ _ _ _ _ HK HG2) as (cs' & vs' & C' & V' & -> & _). cbn [own_ops flat_map filter map app] in *.
  rewrite (generous_style d _ _ HG). destruct (generous_coercers _ _ _ _ _ HG C C') as (more & ->).
  apply fill_call. intros x w y w'. cbn [fill]. apply more_afill. apply with_inner.
  rewrite validators_filter in V, V'. eapply generous_validators; [apply HG|exact V|exact V'].
Qed.

Lemma type_wider : forall base d ts us f g, generous ts us ->
  make_filler P d (HAnn (HType base) ts) [] = Ok f -> make_filler P d (HAnn (HType base) us) [] = Ok g -> extends (call P f) (call P g).
Proof.
  intros base d ts us f g HG HF HF2.
  assert (T : forall ts f, make_filler P d (HAnn (HType base) ts) [] = Ok f -> exists cs vs b,
     tok_coercers P (KSimple (t_type P)) ts = Ok cs /\ tok_validators P (KSimple (t_type P)) ts = Ok vs /\
     forall x, fill P f x = afill P (AF (KSimple (t_type P)) ts (eff_style d ts) cs (vs ++ if style_eqb (eff_style d ts) SHollow then [] else [type_validator P base]) b) x).
  { clear. intros ts f HM. unfold make_filler, get_filler, bind_filler in HM. cbn in HM. rewrite app_nil_r in HM. oinv HM.
    destruct (bound_afiller P d [] (KSimple (t_type P)) ts _ _ eq_refl HMa) as (cs & vs & C & V & -> & _). cbn [app] in *.
    injection HM as <-. unfold ahollow. cbn [a_style]. destruct (style_eqb (eff_style d ts) SHollow);
    (do 3 eexists; split; [exact C|]; split; [exact V|]; intro x; cbn; rewrite ?app_nil_r; reflexivity). }
  destruct (T _ _ HF) as (cs & vs & b & C & V & E). destruct (T _ _ HF2) as (cs' & vs' & b' & C' & V' & E'). clear T.
  destruct (generous_coercers _ _ _ _ _ HG C C') as (more & ->). rewrite (generous_style d _ _ HG) in E'.
  apply fill_call. intros x w y w'. rewrite E, E'. apply more_afill. apply with_inner.
  rewrite validators_filter in V, V'. eapply generous_validators; [apply HG|exact V|exact V'].
Qed.

(** ** Containers *)
Lemma mapM_wider : forall {A B} (f g : A -> M W B), extends f g -> extends (mapM f) (mapM g).
Proof.
  intros A B f g H. intro l. induction l as [|a r IH]; intros w y w' HM; cbn in *; [assumption|].
  unfold bind in *. destruct (f a w) as [[b|e] w1] eqn:E; [|discriminate]. rewrite (H _ _ _ _ E).
  destruct (mapM f r w1) as [[s|e] w2] eqn:E2; [|discriminate]. rewrite (IH _ _ _ E2). exact HM.
Qed.

Lemma elements_wider : forall rk f g, extends f g -> extends (fill_elements P rk f) (fill_elements P rk g).
Proof.
  intros rk f g H z w y w'. unfold fill_elements. destruct (elems P z) as [l|]; [|discriminate]. unfold bind. intro HM.
  destruct (mapM f l w) as [[l'|e] w1] eqn:E; [|discriminate]. rewrite (mapM_wider f g H _ _ _ _ E). exact HM.
Qed.

Lemma items_wider : forall rk f g f' g', extends f f' -> extends g g' -> extends (fill_items P rk f g) (fill_items P rk f' g').
Proof.
  intros rk f g f' g' HF HG z w y w'. unfold fill_items. destruct (items P z) as [l|]; [|discriminate]. unfold bind at 1 4. intro HM.
  match type of HM with context [mapM ?p l w] => destruct (mapM p l w) as [[l'|e] w1] eqn:E; [|discriminate] end.
  erewrite (mapM_wider _ _ _ _ _ _ _ E). exact HM.
  Unshelve. intros kv w2 p w3. unfold bind. intro H.
  destruct (f (fst kv) w2) as [[k|e] w4] eqn:E1; [|discriminate]. rewrite (HF _ _ _ _ E1).
  destruct (g (snd kv) w4) as [[v|e] w5] eqn:E2; [|discriminate]. rewrite (HG _ _ _ _ E2). exact H.
Qed.

Lemma zipM_wider : forall (fs gs : list (obj -> M W obj)), Forall2 extends fs gs -> extends (zipM fs) (zipM gs).
Proof.
  intros fs gs H. induction H as [|f g fr gr H _ IH]; intros l w y w' HM; [assumption|]. cbn in *.
  destruct l as [|a r]; [assumption|]. unfold bind in *. destruct (f a w) as [[b|e] w1] eqn:E; [|discriminate]. rewrite (H _ _ _ _ E).
  destruct (zipM fr r w1) as [[s|e] w2] eqn:E2; [|discriminate]. rewrite (IH _ _ _ _ E2). exact HM.
Qed.

Lemma same_lengths : forall {A B} (R : A -> B -> Prop) l l', Forall2 R l l' -> List.length l = List.length l'.
Proof. intros A B R l l' H. induction H; cbn; congruence. Qed.

Lemma positions_wider : forall (fs gs : list (obj -> M W obj)), Forall2 extends fs gs -> extends (fill_positions P fs) (fill_positions P gs).
Proof.
  intros fs gs H z w y w'. unfold fill_positions. destruct (elems P z) as [l|]; [|discriminate].
  rewrite (same_lengths _ _ _ H). destruct (Nat.eqb _ _); [|discriminate]. unfold bind. intro HM.
  destruct (zipM fs l w) as [[l'|e] w1] eqn:E; [|discriminate]. rewrite (zipM_wider _ _ H _ _ _ _ E). exact HM.
Qed.

Lemma then_wider : forall (f g k l : obj -> M W obj), extends f g -> extends k l ->
  extends (fun x => let* z := f x in k z) (fun x => let* z := g x in l z).
Proof.
  intros f g k l HF HK x w y w' H. unfold bind in *. destruct (f x w) as [[z|e] w1] eqn:E; [|discriminate].
  rewrite (HF _ _ _ _ E). apply HK. exact H.
Qed.

Lemma extends_refl : forall {A B} (f : A -> M W B), extends f f.
Proof. intros A B f x w y w' H. exact H. Qed.

Lemma hollow_wider : forall d, 
  (forall h h', wider P h h' -> hollow_hint d no_sub_tokens [] [] h' = hollow_hint d no_sub_tokens [] [] h) /\
  (forall hs hs', all_wider P hs hs' -> forall i, all_i (fun _ h => hollow_hint d no_sub_tokens [] [] h) i hs' = all_i (fun _ h => hollow_hint d no_sub_tokens [] [] h) i hs).
Proof.
  intro d. apply wider_mut; intros; try reflexivity.
  1: destruct h; try discriminate.
  all: try (cbn; rewrite ?app_nil_r; rewrite (generous_style d ts us); [reflexivity|assumption]).
  - cbn. destruct h; cbn in *; try discriminate; destruct h'; cbn in *; try discriminate; assumption.
  - cbn in H0. assumption.
  - cbn in H0. assumption.
  - cbn. rewrite H0. destruct (hollow_hint d no_sub_tokens [] [] h); [apply H2|reflexivity].
Qed.

Lemma no_ann_make : forall d (h : hint) ops, make_filler P d (HAnn h []) ops = make_filler P d h ops.
Proof. reflexivity. Qed.

Lemma newtype_make : forall d (h : hint) ops, annotated h = false -> make_filler P d (HNewType h) ops = make_filler P d h ops.
Proof. intros d h ops H. destruct h; try reflexivity. discriminate. Qed.

Lemma class_leaf : forall t, plain_class P t -> leaf_kind P (HTy t) = Some (KSimple t).
Proof. intros t H. cbn. rewrite (plain_class_kind P _ H). reflexivity. Qed.

Lemma wider_calls : forall d,
  (forall h h', wider P h h' -> forall f g, make_filler P d h [] = Ok f -> make_filler P d h' [] = Ok g -> extends (call P f) (call P g)) /\
  (forall hs hs', all_wider P hs hs' -> forall gs gs', List.length gs = List.length hs -> List.length gs' = List.length hs' ->
     (forall n h, nth_error hs n = Some h -> exists g, nth_error gs n = Some g /\ make_filler P d h [] = Ok g) ->
     (forall n h, nth_error hs' n = Some h -> exists g, nth_error gs' n = Some g /\ make_filler P d h [] = Ok g) ->
     Forall2 extends (map (call P) gs) (map (call P) gs') /\ List.length hs = List.length hs').
Proof.
  intro d. destruct (hollow_wider d) as [HW HWS]. apply wider_mut.
  - intros h f g HF HG. rewrite HF in HG. injection HG as <-. apply extends_refl.
  - intros h ts us HL HG f g HF HF2. destruct h; try discriminate;
    solve [eapply leaf_wider; [|exact HG|exact HF|exact HF2]; reflexivity | eapply type_wider; eassumption].
  - intros rk t h h' ts us HP HG HR IH f g HF HF2.
    destruct (iter_eq P _ _ _ _ _ _ _ HP HF) as (f0 & f1 & M0 & M1 & E). destruct (iter_eq P _ _ _ _ _ _ _ HP HF2) as (g0 & g1 & N0 & N1 & E'). cbn in *.
    intros x w y w'. rewrite E, E', (HW _ _ HR). apply then_wider; [eapply leaf_wider; [exact (class_leaf _ HP)|exact HG|exact M0|exact N0]|].
    destruct (hollow_hint d no_sub_tokens [] [] h); [apply extends_refl|]. apply elements_wider. apply IH; assumption.
  - intros h h' ts us HP HG HR IH f g HF HF2.
    destruct (tuplev_eq P _ _ _ _ _ HP HF) as (f0 & f1 & M0 & M1 & E). destruct (tuplev_eq P _ _ _ _ _ HP HF2) as (g0 & g1 & N0 & N1 & E'). cbn in *.
    intros x w y w'. rewrite E, E', (HW _ _ HR). apply then_wider; [eapply leaf_wider; [exact (class_leaf _ HP)|exact HG|exact M0|exact N0]|].
    destruct (hollow_hint d no_sub_tokens [] [] h); [apply extends_refl|]. apply elements_wider. apply IH; assumption.
  - intros rk t hk hk' hv hv' ts us HP HG HR1 IH1 HR2 IH2 f g HF HF2.
    destruct (map_eq P _ _ _ _ _ _ _ _ HP HF) as (f0 & f1 & f2 & M0 & M1 & M2 & E). destruct (map_eq P _ _ _ _ _ _ _ _ HP HF2) as (g0 & g1 & g2 & N0 & N1 & N2 & E'). cbn in *.
    intros x w y w'. rewrite E, E', (HW _ _ HR1), (HW _ _ HR2). apply then_wider; [eapply leaf_wider; [exact (class_leaf _ HP)|exact HG|exact M0|exact N0]|].
    destruct (hollow_hint d no_sub_tokens [] [] hk && hollow_hint d no_sub_tokens [] [] hv); [apply extends_refl|]. apply items_wider; [apply IH1|apply IH2]; assumption.
  - intros hs hs' ts us HP HG HR IH f g HF HF2.
    destruct (tuplen_eq P _ _ _ _ _ HP HF) as (f0 & fs & M0 & L & M1 & E). destruct (tuplen_eq P _ _ _ _ _ HP HF2) as (g0 & gs & N0 & L' & N1 & E').
    destruct (IH fs gs L L' M1 N1) as (HE & LE). cbn [own_ops flat_map filter map app] in *.
    intros x w y w'. rewrite E, E', (generous_style d _ _ HG). cbn [sub_ops]. 
    change (fun n h => hollow_hint d no_sub_tokens (sub_ops [] n) [] h) with (fun (_ : nat) h => hollow_hint d (@no_sub_tokens obj ty W) [] [] h).
    rewrite (HWS _ _ HR), <- LE. apply then_wider; [eapply leaf_wider; [exact (class_leaf _ HP)|exact HG|exact M0|exact N0]|].
    destruct (all_i _ 0 hs); [apply extends_refl|]. apply positions_wider. exact HE.
  - intros h h' HA HA' HR IH f g HF HF2. rewrite newtype_make in HF, HF2; try assumption. apply IH; assumption.
  - intros h h' HR IH f g HF HF2. apply IH; assumption.
  - intros h h' HR IH f g HF HF2. apply IH; assumption.
  - intros gs gs' L L' _ _. destruct gs; [|discriminate]. destruct gs'; [|discriminate]. split; [constructor|reflexivity].
  - intros h h' hs hs' HR IH HRS IHS gs gs' L L' H H'. destruct gs as [|g gs]; [discriminate|]. destruct gs' as [|g' gs']; [discriminate|].
    cbn in L, L'. destruct (IHS gs gs') as (H1 & H2); try lia.
    + intros n h0 E. exact (H (S n) h0 E).
    + intros n h0 E. exact (H' (S n) h0 E).
    + destruct (H 0 h eq_refl) as (g0 & E & M0). destruct (H' 0 h' eq_refl) as (g0' & E' & M0'). cbn in E, E'. injection E as <-. injection E' as <-.
      split; [|cbn; lia]. cbn. constructor; [|exact H1]. apply IH; assumption.
Qed.
End Lemmas.
Import Record_proofs Dict_proofs.
Section Records.
Context {obj ty W : Type} (R : Rt obj ty W).
Notation P := (rt_py R).
Notation cls := (@cls obj ty W).

Lemma wider_get : forall fs fs', wider_fields P fs fs' -> forall k,
  match dget k fs, dget k fs' with
  | Some f, Some f' => f_default f' = f_default f /\ extends (call P (f_filler f)) (call P (f_filler f'))
  | None, None => True
  | _, _ => False
  end.
Proof.
  intros fs fs' H. induction H as [|k f f' fs fs' HF _ IH]; intro j; cbn; [exact I|].
  destruct (String.eqb j k); [|apply IH]. destruct HF as (_ & HD & d & h & h' & HW & HM & HM'). split; [assumption|].
  exact (proj1 (wider_calls P d) _ _ HW _ _ HM HM').
Qed.

Lemma wider_keys : forall fs fs', wider_fields P fs fs' -> 
  required_keys fs' = required_keys fs /\ optional_keys fs' = optional_keys fs.
Proof.
  intros fs fs' H. assert (K : keys fs' = keys fs /\ required_keys fs' = required_keys fs).
  { induction H as [|k f f' fs fs' HF _ [IH1 IH2]]; [auto|]. unfold required_keys, keys in *. cbn.
    destruct HF as (_ & HD & _). assert (E : has_default f' = has_default f) by (unfold has_default; rewrite HD; reflexivity).
    rewrite E. split; [apply (f_equal (cons k)); exact IH1|]. destruct (has_default f); cbn; [exact IH2|apply (f_equal (cons k)); exact IH2]. }
  destruct K as [K1 K2]. split; [assumption|]. unfold optional_keys. rewrite K1, K2. reflexivity.
Qed.

Lemma wider_mem : forall fs fs', wider_fields P fs fs' -> forall k, dmem k fs' = dmem k fs.
Proof. intros fs fs' H k. pose proof (wider_get _ _ H k) as G. unfold dmem. destruct (dget k fs), (dget k fs'); tauto. Qed.

Lemma wider_kwargs : forall c fs', wider_fields P (c_fields c) fs' -> forall kw w v w',
  fill_kwargs R c (none R) kw w = (Ok v, w') -> fill_kwargs R (with_fields c fs') (none R) kw w = (Ok v, w').
Proof.
  intros c fs' H. induction kw as [|[k a] r IH]; intros w v w' HF; [exact HF|]. cbn in *. pose proof (wider_get _ _ H k) as G.
  destruct (dget k (c_fields c)) as [f|]; destruct (dget k fs') as [f'|]; try (destruct G; fail); [|discriminate].
  destruct G as [_ G]. destruct (call P (f_filler f) a w) as [[y|e] w1] eqn:E.
  - rewrite (G _ _ _ _ E). unfold bind in *. destruct (fill_kwargs R c (none R) r w1) as [[ys|e] w2] eqn:E2; [|discriminate].
    rewrite (IH _ _ _ E2). exact HF.
  - destruct (negb (is_Exception e)); [discriminate|]. rewrite is_none_none in HF. discriminate.
Qed.

Lemma wider_defaults : forall c fs', wider_fields P (c_fields c) fs' -> forall ks w,
  fill_defaults (with_fields c fs') ks w = fill_defaults c ks w.
Proof.
  intros c fs' H. induction ks as [|k r IH]; intros w; [reflexivity|]. cbn. pose proof (wider_get _ _ H k) as G.
  unfold bind. destruct (dget k (c_fields c)) as [f|]; destruct (dget k fs') as [f'|]; try (destruct G; fail); [|reflexivity].
  destruct G as [G _]. unfold make_default. rewrite G. destruct (f_default f); cbn; unfold ret, raise; try reflexivity;
  rewrite ?IH; try reflexivity. destruct (f0 w) as [[v|e] w1]; [|reflexivity]. rewrite IH. reflexivity.
Qed.

Lemma wider_build : forall c fs', wider_fields P (c_fields c) fs' -> forall kw w v w',
  build R c (none R) kw w = (Ok v, w') -> build R (with_fields c fs') (none R) kw w = (Ok v, w').
Proof.
  intros c fs' H kw w v w' HB. unfold build in *. cbn [with_fields c_fields]. destruct (wider_keys _ _ H) as [-> ->].
  assert (K : forall l, forallb (fun k => dmem k fs') l = forallb (fun k => dmem k (c_fields c)) l).
  { induction l as [|k r IH]; [reflexivity|]. cbn. rewrite (wider_mem _ _ H), IH. reflexivity. }
  rewrite K.
  destruct (negb (forallb _ (keys kw))); [discriminate|]. unfold bind in HB |- *.
  destruct (fill_kwargs R c (none R) kw w) as [[vs|e] w1] eqn:E; [|discriminate]. rewrite (wider_kwargs c fs' H _ _ _ _ E).
  destruct vs as [vs|]; [|exact HB]. destruct (negb (forallb _ _)); [discriminate|]. rewrite (wider_defaults c fs' H). exact HB.
Qed.

Lemma wider_new : forall c fs' n arg, wider_fields P (c_fields c) fs' -> c_unary c = false -> forall kw w v w',
  new R (S n) c arg kw w = (Ok v, w') -> new R (S n) (with_fields c fs') arg kw w = (Ok v, w').
Proof.
  intros c fs' n [a|] H HU kw w v w' HN; [|exact (wider_build c fs' H _ _ _ _ HN)]. cbn [new] in *. cbn [with_fields c_fields c_unary]. rewrite HU in *.
  destruct (wider_keys _ _ H) as [-> _]. unfold bind in *. replace (match kw with [] => ret (none R) | _ :: _ => ret (none R) end) with (@ret W obj (none R)) in * by (destruct kw; reflexivity).
  unfold ret in *. destruct (negb (Nat.eqb _ 1)); [exact HN|]. destruct (required_keys (c_fields c)) as [|k r]; [exact HN|]. destruct (dmem k kw); [exact HN|].
  apply wider_build; assumption.
Qed.

Lemma wider_construct : forall c fs' n pos, wider_fields P (c_fields c) fs' -> c_unary c = false -> forall kw w v w',
  construct R (S n) c pos kw w = (Ok v, w') -> construct R (S n) (with_fields c fs') pos kw w = (Ok v, w').
Proof.
  intros c fs' n pos H HU kw w v w' HC. unfold construct, call_cls in *. destruct (dmem "cls" kw); [exact HC|]. unfold bind in *. change (c_ty (with_fields c fs')) with (c_ty c).
  assert (K : forall a kw', (let (o, w1) := new R (S n) c a kw' w in match o with Ok r => (if isinstance P r (c_ty c) && dmem "self" kw then raise (mkexc TypeError "multiple values for argument 'self'") else ret r) w1 | Raise e => (Raise e, w1) end) = (Ok v, w') ->
    (let (o, w1) := new R (S n) (with_fields c fs') a kw' w in match o with Ok r => (if isinstance P r (c_ty c) && dmem "self" kw then raise (mkexc TypeError "multiple values for argument 'self'") else ret r) w1 | Raise e => (Raise e, w1) end) = (Ok v, w')).
  { intros a kw' E. destruct (new R (S n) c a kw' w) as [[r|e] w1] eqn:EN; [|discriminate]. rewrite (wider_new c fs' n a H HU _ _ _ _ EN). exact E. }
  destruct pos as [a|], (dget "arg" kw) as [b|]; first [exact HC|apply K; exact HC].
Qed.
End Records.

Lemma c160_wider_partial_proof : forall {obj ty W} (P : Py obj ty W) d h h' f g,
  wider P h h' -> make_filler P d h [] = Ok f -> make_filler P d h' [] = Ok g ->
  forall x w y w', call P f x w = (Ok y, w') -> call P g x w = (Ok y, w').
Proof.
 intros obj ty W P d h h' f g HW HF HG. exact (proj1 (wider_calls P d) h h' HW f g HF HG). Qed.

Lemma c160_assert_partial_proof : forall {obj ty W} (P : Py obj ty W) d h ts p us f g,
  plain_hint h = true -> testing (TValid p) ->
  make_filler P d (HAnn h (ts ++ us)) [] = Ok f -> make_filler P d (HAnn h (ts ++ TValid p :: us)) [] = Ok g ->
  forall x w y w', call P g x w = (Ok y, w') -> call P f x w = (Ok y, w').
Proof.
  intros obj ty W P d h ts p us f g HL HT HF HG. refine (proj1 (wider_calls P d) _ _ _ g f HG HF). apply w_plain; [assumption|].
  assert (R : forall l : list (@token obj ty W), fewer_tests l l) by (induction l; constructor; assumption).
  split; [|split].
  - unfold styles_of. rewrite !filter_app. reflexivity.
  - exists []. rewrite app_nil_r. unfold coercions_of. rewrite !filter_app. reflexivity.
  - unfold validations_of. rewrite !filter_app. cbn. induction (filter is_validation ts) as [|t r IH]; cbn; [apply ft_drop; [assumption|apply R]|apply ft_keep; exact IH].
Qed.

Lemma c160_coercer_partial_proof : forall {obj ty W} (P : Py obj ty W) d h ts c f g,
  plain_hint h = true ->
  make_filler P d (HAnn h ts) [] = Ok f -> make_filler P d (HAnn h (ts ++ [TCoerce c])) [] = Ok g ->
  forall x w y w', call P f x w = (Ok y, w') -> call P g x w = (Ok y, w').
Proof.
  intros obj ty W P d h ts c f g HL HF HG. refine (proj1 (wider_calls P d) _ _ _ f g HF HG). apply w_plain; [assumption|].
  assert (R : forall l : list (@token obj ty W), fewer_tests l l) by (induction l; constructor; assumption).
  split; [|split].
  - unfold styles_of. rewrite filter_app. cbn. rewrite app_nil_r. reflexivity.
  - exists [TCoerce c]. unfold coercions_of. rewrite filter_app. reflexivity.
  - unfold validations_of. rewrite filter_app. cbn. rewrite app_nil_r. apply R.
Qed.

Lemma c160_record_partial_proof : forall {obj ty W} (R : Rt obj ty W) n c fs' kw w x w',
  wider_fields (rt_py R) (c_fields c) fs' -> no_reserved kw ->
  construct R (S n) c None kw w = (Ok x, w') -> construct R (S n) (with_fields c fs') None kw w = (Ok x, w').
Proof.
  intros obj ty W R n c fs' kw w x w' H HR HC. rewrite construct_plain in * by assumption. apply wider_build; assumption.
Qed.

Lemma c160_data_partial_proof : forall {obj ty W} (R : Rt obj ty W) n c fs', wider_fields (rt_py R) (c_fields c) fs' -> c_unary c = false ->
  (forall pos kw w x w', construct R (S n) c pos kw w = (Ok x, w') -> construct R (S n) (with_fields c fs') pos kw w = (Ok x, w')) /\
  (forall s maps kw w x w', from_mapping R (S n) c s maps kw w = (Ok x, w') -> from_mapping R (S n) (with_fields c fs') s maps kw w = (Ok x, w')) /\
  (forall s v w x w', from_json R (S n) c s v w = (Ok x, w') -> from_json R (S n) (with_fields c fs') s v w = (Ok x, w')).
Proof.
  intros obj ty W R n c fs' H HU. pose proof (fun pos => wider_construct R c fs' n pos H HU) as K. split; [exact K|]. split.
  - intros s maps kw w x w' E. unfold from_mapping, from_mapping_with, bind in *. destruct (chain_map R maps kw w) as [[d|e] w1]; [|discriminate].
    destruct (lift (sel_apply s d) w1) as [[d'|e] w2]; [|discriminate]. apply K. exact E.
  - intros s v w x w' E. unfold from_json, from_json_with, bind in *. destruct (json_loads R v w) as [[y|e] w1]; [|discriminate].
    match goal with |- (let (_, _) := ?m in _) = _ => destruct m as [[d|e] w2] end; [|discriminate].
    destruct (lift (sel_apply s d) w2) as [[d'|e] w3]; [|discriminate]. apply K. exact E.
Qed.

Definition turns (a b : dobj) : @token dobj dty demo_state :=
  TCoerce (CGlobal (fun _ => Ok (fun x => if dis x a then ret b else raise (mkexc ValueError "")))).
Definition refuses (a : dobj) : @token dobj dty demo_state :=
  TValid (VGlobal (fun _ => Ok (fun x w => (if dis x a then Raise (mkexc ValueError "refused") else Ok x, w)))).

Lemma c160_union_coercer_refuted_proof : exists (P : Py dobj dty demo_state) a a' b f g x y w e,
  coercions_of a' = coercions_of a ++ [turns DNone (DInt 0)] /\ wider P (HAnn (HTy TInt) a) (HAnn (HTy TInt) a') /\
  make_filler P SCheck (HUnion [HAnn (HTy TInt) a; b]) [] = Ok f /\ make_filler P SCheck (HUnion [HAnn (HTy TInt) a'; b]) [] = Ok g /\
  call P f x w = (Ok y, w) /\ call P g x w = (Raise e, w) /\ exc_cls e = ValueError.
Proof.
  exists demo0, [], [turns DNone (DInt 0)], (HAnn (HTy TStr) [turns DNone (DStr "")]). do 2 eexists. exists DNone, (DStr ""), st0. eexists.
  split; [reflexivity|]. split; [|split; [reflexivity|split; [reflexivity|split; [reflexivity|split; reflexivity]]]].
  apply w_plain; [reflexivity|]. split; [reflexivity|]. split; [eexists; reflexivity|constructor].
Qed.

Lemma c160_union_assert_refuted_proof : exists (P : Py dobj dty demo_state) a b f g x y w e,
  wider P (HAnn (HTy TInt) (a ++ [refuses (DInt 0)])) (HAnn (HTy TInt) a) /\
  make_filler P SCheck (HUnion [HAnn (HTy TInt) (a ++ [refuses (DInt 0)]); b]) [] = Ok f /\ make_filler P SCheck (HUnion [HAnn (HTy TInt) a; b]) [] = Ok g /\
  call P f x w = (Ok y, w) /\ call P g x w = (Raise e, w) /\ exc_cls e = ValueError.
Proof.
  exists demo0, [turns DNone (DInt 0)], (HAnn (HTy TStr) [turns DNone (DStr "")]). do 2 eexists. exists DNone, (DStr ""), st0. eexists.
  split; [|split; [reflexivity|split; [reflexivity|split; [reflexivity|split; reflexivity]]]].
  apply w_plain; [reflexivity|]. split; [reflexivity|]. split; [exists []; reflexivity|]. cbn. apply ft_drop; [|constructor].
  intros o f E. injection E as <-. exists (fun x => if dis x (DInt 0) then Some (mkexc ValueError "refused") else None).
  intros x w. destruct (dis x (DInt 0)); reflexivity.
Qed.

Lemma c160_first_refuted_proof : exists (P : Py dobj dty demo_state) c c' f g x y y' w,
  make_filler P SCheck (HAnn (HTy TInt) [TCoerce c]) [] = Ok f /\ make_filler P SCheck (HAnn (HTy TInt) [TCoerce c'; TCoerce c]) [] = Ok g /\
  call P f x w = (Ok y, w) /\ call P g x w = (Ok y', w) /\ y <> y'.
Proof.
  exists demo0, (CGlobal (fun _ => Ok (fun _ => ret (DInt 1)))), (CGlobal (fun _ => Ok (fun _ => ret (DInt 2)))).
  do 2 eexists. exists DNone, (DInt 1), (DInt 2), st0.
  split; [reflexivity|]. split; [reflexivity|]. split; [reflexivity|]. split; [reflexivity|discriminate].
Qed.

Definition turned (a b : dobj) : @token dobj dty rstate :=
  TCoerce (CGlobal (fun _ => Ok (fun x => if dis x a then ret b else raise (mkexc ValueError "")))).
Definition one_field (ts : list (@token dobj dty rstate)) : @cls dobj dty rstate :=
  made_of (rdecl 0 false false (Some true) SCheck [("x", (AHint (HAnn (HTy TInt) ts) [], NoDefault))]
    [("of", fun _ => ret (DStr "parsed"))] no_post).

Lemma c160_positional_refuted_proof : exists c c' a w w' x e w'',
  wider_fields (rt_py (demo_rt 0)) (c_fields c) (c_fields c') /\ c' = with_fields c (c_fields c') /\
  construct (demo_rt 0) 2 c (Some a) [] w = (Ok x, w') /\
  construct (demo_rt 0) 2 c' (Some a) [] w = (Raise e, w'') /\ exc_cls e = TypeError.
Proof.
  exists (one_field []), (one_field [turned (DStr "5") (DInt 5)]), (DStr "5"), w0. do 4 eexists.
  split; [|split; [reflexivity|split; [reflexivity|split; reflexivity]]].
  apply wf_cons; [|constructor]. split; [reflexivity|]. split; [reflexivity|]. exists SCheck, (HAnn (HTy TInt) []), (HAnn (HTy TInt) [turned (DStr "5") (DInt 5)]).
  split; [|split; reflexivity]. apply w_plain; [reflexivity|]. split; [reflexivity|]. split; [eexists; reflexivity|constructor].
Qed.
