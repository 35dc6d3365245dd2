(** Filler_decl.v -- which declarations are refused when a class is created. *)
From Verif Require Import Base Py Filler Spec_Filler Filler_proofs Filler_sound Filler_shape.

Section Decl.
Context {obj ty W : Type} (P : Py obj ty W).
Notation token := (@token obj ty W).
Notation hint := (@hint obj ty W).
Notation filler := (@filler obj ty W).
Notation afiller := (@afiller obj ty W).
Notation akind := (@akind obj ty).
Notation op := (option nat * token)%type.

Lemma class_kind_origin : forall t, origin_of P (class_kind P t) = OTy t.
Proof.
  intro t. unfold class_kind. destruct (ty_eqP P t (t_bool P)) as [->|]; [reflexivity|].
  destruct (ty_eqP P t (t_none P)) as [->|]; [reflexivity|].
  destruct (ty_eqP P t (t_ellipsis P)) as [->|]; reflexivity.
Qed.

Definition plain_ok (dflt : style) (ts : list token) : bool :=
  negb (style_eqb (eff_style dflt ts) SHollow && has_coercer ts).

Definition class_ok' (dflt : style) (ts : list token) (t : ty) : bool :=
  plain_ok dflt ts && negb (style_eqb (eff_style dflt ts) SStrict && isabstract P t).

Lemma bound_consistent : forall dflt pre k own a1 a2,
  aapplys P (mk_afiller k own) pre = Ok a1 -> abind P dflt a1 = Ok a2 ->
  plain_ok dflt (pre ++ own) = true /\ forall t, origin_of P k = OTy t -> class_ok' dflt (pre ++ own) t = true.
Proof.
  intros dflt pre k own a1 a2 H1 H2.
  destruct (bound_afiller P _ _ _ _ _ _ H1 H2) as (cs & vs & C & _ & _ & HH & HS).
  assert (PL : plain_ok dflt (pre ++ own) = true).
  { unfold plain_ok. destruct (style_eqb_spec (eff_style dflt (pre ++ own)) SHollow) as [E|]; [|reflexivity].
    cbn. pose proof (tok_coercers_declared P _ _ _ C) as D. apply declared_coercers_nonempty in D.
    apply negb_true_iff. apply D. auto. }
  split; [assumption|]. intros t O. unfold class_ok'. rewrite PL. cbn.
  destruct (style_eqb_spec (eff_style dflt (pre ++ own)) SStrict) as [E|]; [|reflexivity].
  specialize (HS E). unfold kind_abstract in HS. rewrite O in HS. cbn. rewrite HS. reflexivity.
Qed.

Definition consistent_at (h : hint) : Prop :=
  forall own f ops f1 dflt t f',
    gaf P own h = Ok f -> apply_ops P f ops = Ok f1 -> bind_with P dflt t f1 = Ok f' ->
    consistent P dflt (sub_ops ops) (own_ops ops ++ t) own h = true.

(** a part of an annotation *)
Lemma consistent_part : forall h, consistent_at h -> forall dflt s ts s1 u s2,
  gaf P [] h = Ok s -> applys P s ts = Ok s1 -> bind_with P dflt u s1 = Ok s2 ->
  consistent P dflt no_sub_tokens (ts ++ u) [] h = true /\
  is_hollow s2 = hollow_hint dflt no_sub_tokens (ts ++ u) [] h.
Proof.
  intros h IH dflt s ts s1 u s2 G A B. rewrite (bind_with_applys P _ _ _ _ _ A) in B. split.
  - pose proof (IH [] s [] s dflt _ s2 G eq_refl B) as C. exact C.
  - pose proof (hollow_correct P h [] s [] s dflt _ s2 G eq_refl B) as C. exact C.
Qed.

Lemma nth_same_length : forall {A B} (l : list A) (l' : list B) n a,
  List.length l' = List.length l -> nth_error l n = Some a -> exists b, nth_error l' n = Some b.
Proof.
  intros A B l l' n a E H. destruct (nth_error l' n) eqn:EE; [eauto|]. apply nth_error_None in EE.
  rewrite E in EE. apply nth_error_None in EE. congruence.
Qed.

Lemma consistent_parts : forall hs, Forall consistent_at hs -> forall dflt ops subs subs1 u subs2,
  mapO (gaf P []) hs = Ok subs -> subs_after P ops subs subs1 -> mapO (bind_with P dflt u) subs1 = Ok subs2 ->
  all_i (fun i h' => consistent P dflt no_sub_tokens (sub_ops ops i ++ u) [] h') 0 hs = true /\
  forallb is_hollow subs2 = all_i (fun i h' => hollow_hint dflt no_sub_tokens (sub_ops ops i ++ u) [] h') 0 hs.
Proof.
  intros hs IH dflt ops subs subs1 u subs2 HG HS HB.
  assert (MEM : forall n s2 h', nth_error subs2 n = Some s2 -> nth_error hs n = Some h' ->
      consistent P dflt no_sub_tokens (sub_ops ops n ++ u) [] h' = true /\
      is_hollow s2 = hollow_hint dflt no_sub_tokens (sub_ops ops n ++ u) [] h').
  { intros n s2 h' E2 Eh. destruct (mapO_nth' _ _ _ _ _ HB E2) as (s1 & E1 & B1).
    destruct (subs_after_back P _ _ _ _ _ HS E1) as (s & E & A).
    destruct (mapO_nth' _ _ _ _ _ HG E) as (h'' & Eh' & G). rewrite Eh in Eh'. injection Eh' as <-.
    eapply consistent_part; try eassumption. eapply nth_error_Forall; eassumption. }
  assert (LEN : List.length subs2 = List.length hs).
  { apply mapO_length in HG. apply mapO_length in HB. destruct HS as [LL _]. congruence. }
  split.
  - apply all_i_nth. intros n h' E. destruct (nth_same_length _ _ _ _ LEN E) as [s2 E2].
    apply (MEM _ _ _ E2 E).
  - apply bool_eq_iff. rewrite forallb_nth, all_i_nth. split; intros H n z E.
    + destruct (nth_same_length _ _ _ _ LEN E) as [s2 E2]. cbn. rewrite <- (proj2 (MEM _ _ _ E2 E)). eapply H; eassumption.
    + destruct (nth_same_length _ _ _ _ (eq_sym LEN) E) as [h2 E2]. rewrite (proj2 (MEM _ _ _ E E2)). apply (H _ _ E2).
Qed.

Ltac leafc HO H1 H2 k :=
  let HA := fresh "HA" in
  destruct (aapplys_abind P _ _ _ _ _ _ _ _ HO H1 H2) as [HA _];
  destruct (bound_consistent _ _ _ _ _ _ HA H2) as [PLAIN CLASS].

Lemma consistent_correct : forall h, consistent_at h.
Proof.
  induction h as [t0| | | |h IH|hs IH|lid vals|base|hs IH|h IH|rk t0 h IH|rk t0 hk hv IHk IHv|t0 hs IH|t0| |h toks IH]
    using hint_ind'; intros own f ops f1 dflt t f' HG HO HB;
    try (cbn in HG; injection HG as <-; apply ops_ann in HO; destruct HO as (a1 & -> & HO);
         cbn in HB; oinv HB; oinv HB; injection HB as <-; leafc HO HBa HBa0 tt; cbn [consistent];
         first [exact PLAIN | apply CLASS; first [reflexivity | apply class_kind_origin]]).
  - (* HNewType *)
    assert (D : (exists h' ts, h = HAnn h' ts) \/ (forall A (x y : A), match h with HAnn _ _ => x | _ => y end = y)).
    { destruct h; auto. left; eauto. }
    destruct D as [(h' & ts & ->)|D].
    + cbn in HG. unfold dumb in HG. destruct own; [|discriminate]. injection HG as <-.
      apply ops_dumb in HO. destruct HO as [-> ->]. cbn in HB. destruct t; [|discriminate].
      cbn. destruct (style_eqb dflt SHollow); [reflexivity|discriminate].
    + assert (HG' : gaf P own h = Ok f) by (rewrite <- HG; cbn; symmetry; apply (D (outcome filler))).
      rewrite <- (IH own f ops f1 dflt t f' HG' HO HB). cbn [consistent]. apply (D bool).
  - (* HUnion *)
    cbn in HG. oinv HG. injection HG as <-. apply ops_union in HO. destruct HO as (subs1 & -> & HS).
    cbn in HB. oinv HB. injection HB as <-. cbn [app] in HBa.
    destruct (consistent_parts hs IH dflt ops _ _ _ _ HGa HS HBa) as [C _]. exact C.
  - (* HType *)
    cbn in HG. injection HG as <-. apply ops_type in HO. destruct HO as (a1 & -> & HO).
    cbn in HB. oinv HB. oinv HB. leafc HO HBa HBa0 tt. cbn [consistent]. apply CLASS; reflexivity.
  - (* HTupleN *)
    cbn in HG. oinv HG. injection HG as <-. apply ops_tuplen in HO. destruct HO as (a1 & subs1 & -> & HO & HS).
    cbn in HB. oinv HB. oinv HB. oinv HB.
    pose proof (afiller_style P _ _ _ _ _ _ _ _ HO HBa HBa0) as HST.
    leafc HO HBa HBa0 tt. cbn [consistent].
    destruct (consistent_parts hs IH dflt ops _ _ _ _ HGa HS HBa1) as [C H].
    assert (E0 : forall i, sub_ops ops i ++ [] = sub_ops ops i) by (intro; apply app_nil_r).
    specialize (CLASS (t_tuple P) eq_refl). unfold class_ok', plain_ok in CLASS. rewrite CLASS. cbn [andb].
    apply andb_true_iff. split.
    + rewrite all_i_nth in *. intros n a' E. specialize (C n a' E). cbn in *. rewrite E0 in C. exact C.
    + apply orb_true_iff. rewrite negb_true_iff. rewrite <- HST. destruct (ahollow a2) eqn:AH; [right|left; reflexivity].
      destruct (forallb is_hollow a3) eqn:FH; [|rewrite AH in HB; discriminate].
      symmetry in H. rewrite all_i_nth in *. intros n a' E. specialize (H n a' E). cbn in *. rewrite E0 in H. exact H.
  - (* HTupleV *)
    cbn in HG. oinv HG. injection HG as <-. apply ops_tuplev in HO. destruct HO as (a1 & sub1 & -> & HO & HS).
    cbn in HB. oinv HB. oinv HB. oinv HB.
    pose proof (afiller_style P _ _ _ _ _ _ _ _ HO HBa HBa0) as HST.
    leafc HO HBa HBa0 tt. cbn [consistent].
    destruct (consistent_part h IH dflt _ _ _ _ _ HGa HS HBa1) as [C H]. rewrite app_nil_r in *.
    specialize (CLASS (t_tuple P) eq_refl). unfold class_ok', plain_ok in CLASS. rewrite CLASS, C. cbn [andb].
    rewrite <- HST, <- H. destruct (is_hollow a3); [apply orb_true_r|].
    destruct (ahollow a2); [discriminate|reflexivity].
  - (* HIter *)
    cbn in HG. oinv HG. injection HG as <-. apply ops_iter in HO. destruct HO as (a1 & sub1 & -> & HO & HS).
    cbn in HB. oinv HB. oinv HB. oinv HB.
    pose proof (afiller_style P _ _ _ _ _ _ _ _ HO HBa HBa0) as HST.
    leafc HO HBa HBa0 tt. cbn [consistent].
    destruct (consistent_part h IH dflt _ _ _ _ _ HGa HS HBa1) as [C H]. rewrite app_nil_r in *.
    specialize (CLASS t0 eq_refl). unfold class_ok', plain_ok in CLASS. rewrite CLASS, C. cbn [andb].
    rewrite <- HST, <- H. destruct (is_hollow a3); [apply orb_true_r|].
    destruct (ahollow a2); [discriminate|reflexivity].
  - (* HMap *)
    cbn in HG. oinv HG. oinv HG. injection HG as <-. apply ops_map in HO.
    destruct HO as (a1 & fk1 & fv1 & -> & HO & HSk & HSv).
    cbn in HB. oinv HB. oinv HB. oinv HB. oinv HB.
    pose proof (afiller_style P _ _ _ _ _ _ _ _ HO HBa HBa0) as HST.
    leafc HO HBa HBa0 tt. cbn [consistent].
    destruct (consistent_part hk IHk dflt _ _ _ _ _ HGa HSk HBa1) as [Ck Hk].
    destruct (consistent_part hv IHv dflt _ _ _ _ _ HGa0 HSv HBa2) as [Cv Hv]. rewrite app_nil_r in *.
    specialize (CLASS t0 eq_refl). unfold class_ok', plain_ok in CLASS. rewrite CLASS, Ck, Cv. cbn [andb].
    rewrite <- HST, <- Hk, <- Hv. destruct (is_hollow a4 && is_hollow a5); [apply orb_true_r|].
    destruct (ahollow a3); [discriminate|reflexivity].
  - (* HGenN *)
    cbn in HG. oinv HG. injection HG as <-. apply ops_genn in HO. destruct HO as (a1 & -> & HO).
    cbn in HB. oinv HB. oinv HB. oinv HB. leafc HO HBa HBa0 tt. cbn [consistent].
    specialize (CLASS t0 eq_refl). unfold class_ok', plain_ok in CLASS. rewrite CLASS. cbn [andb].
    assert (MEM : forall n h', nth_error hs n = Some h' ->
      consistent P dflt no_sub_tokens [] [] h' = true /\ hollow_hint dflt no_sub_tokens [] [] h' = true).
    { intros n h' E. destruct (mapO_nth _ _ _ _ _ HGa E) as (s & Es & G).
      destruct (mapO_nth _ _ _ _ _ HBa1 Es) as (s2 & E2 & B). oinv B.
      destruct (is_hollow a4) eqn:IH4; [|discriminate].
      destruct (consistent_part h' (nth_error_Forall _ _ _ _ IH E) dflt s [] s [] a4 G eq_refl Ba) as [C H].
      cbn in C, H. split; congruence. }
    apply andb_true_iff. split; apply all_i_nth; intros n h' E; apply (MEM n h' E).
  - (* HOther *)
    cbn in HG. unfold dumb in HG. destruct own; [|discriminate]. injection HG as <-.
    apply ops_dumb in HO. destruct HO as [-> ->]. cbn in HB. destruct t; [|discriminate].
    cbn. destruct (style_eqb dflt SHollow); [reflexivity|discriminate].
  - (* HAnn *)
    cbn in HG. cbn [consistent]. eapply IH; eassumption.
Qed.

Lemma make_consistent : forall dflt h ops f,
  make_filler P dflt h ops = Ok f -> consistent P dflt (sub_ops ops) (own_ops ops) [] h = true.
Proof.
  intros dflt h ops f H. unfold make_filler, get_filler, bind_filler in H. oinv H. oinv H.
  pose proof (consistent_correct h [] _ _ _ _ _ _ Ha Ha0 H) as C. rewrite app_nil_r in C. exact C.
Qed.

(** ** Nothing else is refused *)

Lemma understood_coercers : forall k ts, Forall understood ts -> exists cs, tok_coercers P k ts = Ok cs.
Proof.
  intros k ts H. induction H as [|t r HT HR [cs IH]]; cbn; [eauto|].
  destruct t as [s|[g| |l|]|[g|]|]; cbn in *; try contradiction; eauto.
  destruct (HT (origin_of P k)) as [f ->]. cbn. rewrite IH. cbn. eauto.
Qed.

Lemma understood_validators : forall k ts, Forall understood ts -> exists vs, tok_validators P k ts = Ok vs.
Proof.
  intros k ts H. induction H as [|t r HT HR [cs IH]]; cbn; [eauto|].
  destruct t as [s|[g| |l|]|[g|]|]; cbn in *; try contradiction; eauto.
  destruct (HT (origin_of P k)) as [f ->]. cbn. rewrite IH. cbn. eauto.
Qed.

Lemma leaf_forward : forall dflt pre k own,
  Forall understood (pre ++ own) -> plain_ok dflt (pre ++ own) = true ->
  (forall t, origin_of P k = OTy t -> class_ok' dflt (pre ++ own) t = true) ->
  exists a1 a2, aapplys P (mk_afiller k own) pre = Ok a1 /\ abind P dflt a1 = Ok a2 /\
    ahollow a2 = style_eqb (eff_style dflt (pre ++ own)) SHollow.
Proof.
  intros dflt pre k own HU HP HK.
  destruct (understood_coercers k _ HU) as [cs C]. destruct (understood_validators k _ HU) as [vs V].
  assert (B := bound_fwd P dflt pre k own cs vs C V).
  assert (PL : style_eqb (eff_style dflt (pre ++ own)) SHollow && negb (match cs with [] => true | _ => false end) = false).
  { unfold plain_ok in HP. apply negb_true_iff in HP. destruct (style_eqb _ SHollow); [|reflexivity]. cbn in HP |- *.
    pose proof (tok_coercers_declared P _ _ _ C) as D. apply declared_coercers_nonempty in D.
    rewrite (proj2 D HP). reflexivity. }
  cbn zeta in B. rewrite PL in B.
  assert (R : exists a2, (do a1 <- aapplys P (mk_afiller k own) pre; abind P dflt a1) = Ok a2 /\
                ahollow a2 = style_eqb (eff_style dflt (pre ++ own)) SHollow).
  { assert (KA : style_eqb (eff_style dflt (pre ++ own)) SStrict && kind_abstract P k = false).
    { unfold kind_abstract. destruct (origin_of P k) as [t| |] eqn:O; try apply andb_false_r.
      specialize (HK t eq_refl). unfold class_ok' in HK. rewrite HP in HK. cbn in HK. apply negb_true_iff in HK. exact HK. }
    rewrite KA in B. destruct k; rewrite B; eexists; (split; [reflexivity|]); reflexivity. }
  destruct R as (a2 & R & H). oinv R. exists a, a2. auto.
Qed.

Definition forward_at (h : hint) : Prop :=
  forall own pre sub dflt,
    Forall understood (pre ++ own ++ hint_tokens h) -> (forall i, sub i = []) ->
    consistent P dflt sub pre own h = true ->
    exists f f', gaf P own h = Ok f /\ bind_with P dflt pre f = Ok f'.

Lemma mapO_all : forall {A B} (g : A -> outcome B) l, (forall a, In a l -> exists b, g a = Ok b) -> exists l', mapO g l = Ok l'.
Proof.
  induction l as [|a r IH]; intro H; cbn; [eauto|].
  destruct (H a (or_introl eq_refl)) as [b ->]. cbn. destruct IH as [l' ->]; [intros; apply H; right; assumption|]. cbn. eauto.
Qed.

Lemma is_hollow_part : forall h dflt s pre s2, gaf P [] h = Ok s -> bind_with P dflt pre s = Ok s2 ->
  is_hollow s2 = hollow_hint dflt no_sub_tokens pre [] h.
Proof. intros h dflt s pre s2 G B. exact (hollow_correct P h [] s [] s dflt pre s2 G eq_refl B). Qed.

Lemma Forall_tokens : forall (p : token -> Prop) (hs : list hint) h, Forall p (flat_map hint_tokens hs) -> In h hs -> Forall p (hint_tokens h).
Proof. intros p hs h H HI. rewrite Forall_forall in *. intros t Ht. apply H. apply in_flat_map. eauto. Qed.

Lemma forward_parts : forall hs, Forall forward_at hs -> forall pre dflt,
  Forall understood pre -> Forall understood (flat_map hint_tokens hs) ->
  (forall h, In h hs -> consistent P dflt no_sub_tokens pre [] h = true) ->
  exists subs subs2, mapO (gaf P []) hs = Ok subs /\ mapO (bind_with P dflt pre) subs = Ok subs2.
Proof.
  intros hs IH pre dflt HP HU HC.
  induction hs as [|h r IHl]; cbn; [exists [], []; auto|].
  inversion IH; subst. cbn in HU. apply Forall_app in HU. destruct HU as [U1 U2].
  destruct (H1 [] pre no_sub_tokens dflt) as (s & s2 & G & B).
  { cbn. apply Forall_app. auto. } { reflexivity. } { apply HC. left; reflexivity. }
  destruct (IHl H2 U2) as (subs & subs2 & G2 & B2). { intros; apply HC; right; assumption. }
  rewrite G, G2. cbn. eexists; eexists. split; [reflexivity|]. cbn. rewrite B, B2. reflexivity.
Qed.

Lemma all_i_const : forall {A} (p : nat -> A -> bool) (q : A -> bool) l,
  (forall i a, p i a = q a) -> forall i, all_i p i l = true -> forall a, In a l -> q a = true.
Proof.
  intros A p q l E i H a HI. apply In_nth_error in HI. destruct HI as [n EN].
  rewrite all_i_nth in H. rewrite <- (E (i + n)). apply H. assumption.
Qed.

Lemma forward_correct : forall h, forward_at h.
Proof.
  induction h as [t0| | | |h IH|hs IH|lid vals|base|hs IH|h IH|rk t0 h IH|rk t0 hk hv IHk IHv|t0 hs IH|t0| |h toks IH]
    using hint_ind'; intros own pre sub dflt HU HS HC; cbn [hint_tokens] in HU; rewrite ?app_nil_r in HU;
    try (cbn [gaf]; eexists; cbn [consistent] in HC; match goal with
           |- exists f', Ok (FAnn (mk_afiller ?k ?o)) = _ /\ _ =>
             destruct (leaf_forward dflt pre k o HU) as (a1 & a2 & A & B & _);
             [ first [exact HC | apply andb_true_iff in HC; exact (proj1 HC)]
             | intros t O; try discriminate;
               first [rewrite class_kind_origin in O | cbn in O]; injection O as <-; exact HC |]
         end; eexists; split; [reflexivity|]; cbn; rewrite A; cbn; rewrite B; reflexivity).
  - (* HNewType *)
    assert (D : (exists h' ts, h = HAnn h' ts) \/ (forall A (x y : A), match h with HAnn _ _ => x | _ => y end = y)).
    { destruct h; auto. left; eauto. }
    destruct D as [(h' & ts & ->)|D].
    + cbn in HC. destruct (pre ++ own) eqn:E; [|discriminate]. apply app_eq_nil in E. destruct E as [-> ->].
      cbn. eexists; eexists. split; [reflexivity|]. cbn. rewrite HC. reflexivity.
    + assert (HC' : consistent P dflt sub pre own h = true) by (rewrite <- HC; cbn [consistent]; symmetry; apply (D bool)).
      destruct (IH own pre sub dflt HU HS HC') as (f & f' & G & B). exists f, f'. split; [|assumption].
      cbn. rewrite <- G. apply (D (outcome filler)).
  - (* HUnion *)
    rewrite Forall_app in HU. destruct HU as [U1 U2]. rewrite Forall_app in U2. destruct U2 as [U2 U3].
    destruct (forward_parts hs IH (own ++ pre) dflt) as (subs & subs2 & G & B).
    { apply Forall_app; auto. } { assumption. }
    { intros h' HI. cbn [consistent] in HC.
      refine (all_i_const _ (fun h' => consistent P dflt no_sub_tokens (own ++ pre) [] h') hs _ 0 HC h' HI).
      intros i a. cbn. rewrite HS. reflexivity. }
    cbn. rewrite G. cbn. eexists; eexists. split; [reflexivity|]. cbn. rewrite B. reflexivity.
  - (* HType *)
    cbn [consistent] in HC. cbn.
    destruct (leaf_forward dflt pre (KSimple (t_type P)) own HU) as (a1 & a2 & A & B & _).
    { apply andb_true_iff in HC; exact (proj1 HC). } { intros t O. injection O as <-. exact HC. }
    eexists; eexists; split; [reflexivity|]. cbn. rewrite A. cbn. rewrite B. reflexivity.
  - (* HTupleN *)
    cbn [consistent] in HC. apply andb_true_iff in HC. destruct HC as [HC HE]. apply andb_true_iff in HC. destruct HC as [HC HP].
    rewrite app_assoc, Forall_app in HU. destruct HU as [U1 U2].
    destruct (leaf_forward dflt pre (KSimple (t_tuple P)) own U1) as (a1 & a2 & A & B & AH).
    { apply andb_true_iff in HC; exact (proj1 HC). } { intros t O. injection O as <-. exact HC. }
    destruct (forward_parts hs IH [] dflt) as (subs & subs2 & G & BS); [constructor|assumption| |].
    { intros h' HI. refine (all_i_const _ (fun h' => consistent P dflt no_sub_tokens [] [] h') hs _ 0 HP h' HI).
      intros i a. cbn. rewrite HS. reflexivity. }
    cbn. rewrite G. cbn. eexists. rewrite <- AH in HE.
    assert (FH : ahollow a2 = true -> forallb is_hollow subs2 = true).
    { intro E. rewrite E in HE. cbn in HE. apply forallb_nth. intros n s2 E2.
      destruct (mapO_nth' _ _ _ _ _ BS E2) as (s & Es & Bs). destruct (mapO_nth' _ _ _ _ _ G Es) as (h' & Eh & Gh).
      rewrite (is_hollow_part _ _ _ _ _ Gh Bs). rewrite all_i_nth in HE. specialize (HE _ _ Eh). cbn in HE. rewrite HS in HE. exact HE. }
    destruct (forallb is_hollow subs2) eqn:FE.
    + eexists. split; [reflexivity|]. cbn. rewrite A. cbn. rewrite B. cbn. rewrite BS. cbn. rewrite FE. reflexivity.
    + destruct (ahollow a2) eqn:E2; [specialize (FH eq_refl); discriminate|].
      eexists. split; [reflexivity|]. cbn. rewrite A. cbn. rewrite B. cbn. rewrite BS. cbn. rewrite FE, E2. cbn.
      rewrite ahollow_add, E2. reflexivity.
  - (* HTupleV *)
    cbn [consistent] in HC. apply andb_true_iff in HC. destruct HC as [HC HE]. apply andb_true_iff in HC. destruct HC as [HC HP].
    rewrite app_assoc, Forall_app in HU. destruct HU as [U1 U2]. rewrite HS in *.
    destruct (leaf_forward dflt pre (KSimple (t_tuple P)) own U1) as (a1 & a2 & A & B & AH).
    { apply andb_true_iff in HC; exact (proj1 HC). } { intros t O. injection O as <-. exact HC. }
    destruct (IH [] [] no_sub_tokens dflt U2 (fun _ => eq_refl) HP) as (s & s2 & G & BS).
    cbn. rewrite G. cbn. eexists. rewrite <- AH, <- (is_hollow_part _ _ _ _ _ G BS) in HE.
    destruct (is_hollow s2) eqn:E1; [|destruct (ahollow a2) eqn:E2; [discriminate|]];
      eexists; (split; [reflexivity|]); cbn; rewrite A; cbn; rewrite B; cbn; rewrite BS; cbn; rewrite E1, ?E2; reflexivity.
  - (* HIter *)
    cbn [consistent] in HC. apply andb_true_iff in HC. destruct HC as [HC HE]. apply andb_true_iff in HC. destruct HC as [HC HP].
    rewrite app_assoc, Forall_app in HU. destruct HU as [U1 U2]. rewrite HS in *.
    destruct (leaf_forward dflt pre (KSimple t0) own U1) as (a1 & a2 & A & B & AH).
    { apply andb_true_iff in HC; exact (proj1 HC). } { intros t O. injection O as <-. exact HC. }
    destruct (IH [] [] no_sub_tokens dflt U2 (fun _ => eq_refl) HP) as (s & s2 & G & BS).
    cbn. rewrite G. cbn. eexists. rewrite <- AH, <- (is_hollow_part _ _ _ _ _ G BS) in HE.
    destruct (is_hollow s2) eqn:E1; [|destruct (ahollow a2) eqn:E2; [discriminate|]];
      eexists; (split; [reflexivity|]); cbn; rewrite A; cbn; rewrite B; cbn; rewrite BS; cbn; rewrite E1, ?E2; reflexivity.
  - (* HMap *)
    cbn [consistent] in HC. apply andb_true_iff in HC. destruct HC as [HC HE]. apply andb_true_iff in HC. destruct HC as [HC HPv].
    apply andb_true_iff in HC. destruct HC as [HC HPk].
    rewrite app_assoc, Forall_app in HU. destruct HU as [U1 U2]. apply Forall_app in U2. destruct U2 as [Uk Uv]. rewrite !HS in *.
    destruct (leaf_forward dflt pre (KSimple t0) own U1) as (a1 & a2 & A & B & AH).
    { apply andb_true_iff in HC; exact (proj1 HC). } { intros t O. injection O as <-. exact HC. }
    destruct (IHk [] [] no_sub_tokens dflt Uk (fun _ => eq_refl) HPk) as (sk & sk2 & Gk & Bk).
    destruct (IHv [] [] no_sub_tokens dflt Uv (fun _ => eq_refl) HPv) as (sv & sv2 & Gv & Bv).
    cbn. rewrite Gk, Gv. cbn. eexists. rewrite <- AH, <- (is_hollow_part _ _ _ _ _ Gk Bk), <- (is_hollow_part _ _ _ _ _ Gv Bv) in HE.
    destruct (is_hollow sk2 && is_hollow sv2) eqn:E1; [|destruct (ahollow a2) eqn:E2; [discriminate|]];
      eexists; (split; [reflexivity|]); cbn; rewrite A; cbn; rewrite B; cbn; rewrite Bk, Bv; cbn; rewrite E1, ?E2; reflexivity.
  - (* HGenN *)
    cbn [consistent] in HC. apply andb_true_iff in HC. destruct HC as [HC HE]. apply andb_true_iff in HC. destruct HC as [HC HP].
    rewrite app_assoc, Forall_app in HU. destruct HU as [U1 U2].
    destruct (leaf_forward dflt pre (KSimple t0) own U1) as (a1 & a2 & A & B & AH).
    { apply andb_true_iff in HC; exact (proj1 HC). } { intros t O. injection O as <-. exact HC. }
    destruct (forward_parts hs IH [] dflt) as (subs & subs2 & G & BS); [constructor|assumption| |].
    { intros h' HI. refine (all_i_const _ (fun h' => consistent P dflt no_sub_tokens [] [] h') hs _ 0 HP h' HI). reflexivity. }
    cbn. rewrite G. cbn. eexists.
    assert (F : exists subs3, mapO (fun s => do s' <- bind_with P dflt [] s;
              if is_hollow s' then Ok s' else Raise (mkexc TypeError "A non-specialized filler cannot have non-hollow inner types")) subs = Ok subs3).
    { apply mapO_all. intros s HI. apply In_nth_error in HI. destruct HI as [n En].
      destruct (mapO_nth _ _ _ _ _ BS En) as (s2 & E2 & Bs). destruct (mapO_nth' _ _ _ _ _ G En) as (h' & Eh & Gh).
      rewrite Bs. cbn. rewrite (is_hollow_part _ _ _ _ _ Gh Bs). rewrite all_i_nth in HE. rewrite (HE _ _ Eh). eauto. }
    destruct F as [subs3 F]. eexists. split; [reflexivity|]. cbn. rewrite A. cbn. rewrite B. cbn. rewrite F. reflexivity.
  - (* HOther *)
    cbn in HC. destruct (pre ++ own) eqn:E; [|discriminate]. apply app_eq_nil in E. destruct E as [-> ->].
    cbn. eexists; eexists. split; [reflexivity|]. cbn. rewrite HC. reflexivity.
  - (* HAnn *)
    cbn. apply (IH (toks ++ own) pre sub dflt); [|assumption|exact HC].
    rewrite !Forall_app in *. tauto.
Qed.

Lemma make_forward : forall dflt h ts,
  Forall understood (ts ++ hint_tokens h) ->
  consistent P dflt no_sub_tokens ts [] h = true ->
  exists f, make_filler P dflt h (own_only ts) = Ok f.
Proof.
  intros dflt h ts HU HC.
  destruct (forward_correct h [] ts no_sub_tokens dflt HU (fun _ => eq_refl) HC) as (f & f' & G & B).
  unfold make_filler, get_filler, bind_filler. rewrite G. cbn. rewrite apply_ops_own_only.
  assert (B' := B). rewrite <- (app_nil_r ts) in B'.
  apply bind_with_applys_conv in B. destruct B as (f1 & A & B). exists f'. rewrite A. exact B.
Qed.

End Decl.
