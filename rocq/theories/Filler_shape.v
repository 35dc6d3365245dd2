(** Filler_shape.v -- the exact shape of the filler that make_filler builds, and the
    declared callbacks it runs. *)
From Verif Require Import Base Py Filler Spec_Filler Filler_proofs Filler_sound.

Section Shape.
Context {obj ty W : Type} (P : Py obj ty W).
Notation token := (@token obj ty W).
Notation hint := (@hint obj ty W).
Notation origin := (@origin ty).
Notation filler := (@filler obj ty W).
Notation afiller := (@afiller obj ty W).
Notation callback := (@callback obj W).
Notation akind := (@akind obj ty).
Notation op := (option nat * token)%type.

(** ** Tokens *)

Fixpoint ctoken_size (c : @ctoken obj ty W) : nat :=
  match c with
  | CCompose cs => S ((fix sum l := match l with [] => 0 | c :: r => ctoken_size c + sum r end) cs)
  | _ => 1
  end.

Lemma run_seq_app : forall (fs gs : list callback) x w,
  run_seq (fs ++ gs) x w = (let* y := run_seq fs x in run_seq gs y) w.
Proof.
  induction fs as [|f r IH]; intros gs x w; cbn; [reflexivity|].
  unfold bind in *. destruct (f x w) as [[y|e] w1]; [|reflexivity]. apply IH.
Qed.

Lemma run_seq_rev : forall (fs : list callback) x w, run_seq (rev fs) x w = compose fs x w.
Proof.
  induction fs as [|f r IH]; intros x w; cbn; [reflexivity|].
  rewrite run_seq_app. unfold bind. rewrite IH. destruct (compose r x w) as [[y|e] w1]; [|reflexivity].
  cbn. unfold bind. destruct (f y w1) as [[z|e] w2]; reflexivity.
Qed.

Lemma get_coercer_yields_aux : forall n k c f,
  ctoken_size c <= n -> get_coercer P k c = Ok f -> yields P (origin_of P k) c f.
Proof.
  induction n as [|n IH]; intros k c f HS HG; [destruct c; cbn in HS; lia|].
  destruct c as [g| |cs|]; cbn in HG.
  - constructor; assumption.
  - destruct k; try discriminate. injection HG as <-. constructor; reflexivity.
  - oinv HG. injection HG as <-. apply yields_compose with (fs := a); [|intros; apply run_seq_rev].
    apply mapO_Forall2 in HGa. clear - HGa HS IH. cbn in HS.
    assert (HS' : (fix sum l := match l with [] => 0 | c :: r => ctoken_size c + sum r end) cs <= n) by lia. clear HS.
    induction HGa as [|c f cs fs HC HF IHF]; constructor.
    + apply IH; [lia|assumption].
    + apply IHF. lia.
  - discriminate.
Qed.

Lemma get_coercer_yields : forall k c f, get_coercer P k c = Ok f -> yields P (origin_of P k) c f.
Proof. intros. eapply get_coercer_yields_aux; [apply Nat.le_refl|assumption]. Qed.

Lemma tok_coercers_declared : forall k ts cs, tok_coercers P k ts = Ok cs -> declared_coercers P (origin_of P k) ts cs.
Proof.
  unfold declared_coercers. induction ts as [|t r IH]; intros cs H; cbn in *.
  - injection H as <-. constructor.
  - destruct t; try (apply IH; assumption). oinv H. oinv H. injection H as <-. cbn. constructor.
    + apply get_coercer_yields; assumption.
    + apply IH; assumption.
Qed.

Lemma tok_validators_declared : forall k ts vs, tok_validators P k ts = Ok vs -> declared_validators (origin_of P k) ts vs.
Proof.
  unfold declared_validators. induction ts as [|t r IH]; intros cs H; cbn in *.
  - injection H as <-. constructor.
  - destruct t; try (apply IH; assumption). oinv H. oinv H. injection H as <-. cbn. constructor.
    + destruct v; [exact Ha|discriminate].
    + apply IH; assumption.
Qed.

Lemma declared_tok_validators : forall k ts vs, declared_validators (origin_of P k) ts vs -> tok_validators P k ts = Ok vs.
Proof.
  unfold declared_validators. induction ts as [|t r IH]; intros vs H; cbn in *.
  - inversion H; reflexivity.
  - destruct t; try (apply IH; assumption). cbn in H. inversion H; subst. destruct v; [|contradiction].
    cbn. rewrite H2. cbn. rewrite (IH _ H4). reflexivity.
Qed.

(** the callables of a list of validation tokens are determined *)
Lemma declared_validators_fun : forall o (ts : list token) (vs us : list callback),
  declared_validators o ts vs -> declared_validators o ts us -> vs = us.
Proof.
  unfold declared_validators. intros o ts vs us H. revert us.
  induction H as [|v f ts' vs HV HF IH]; intros us HU; inversion HU; subst; [reflexivity|].
  f_equal; [|apply IH; assumption]. destruct v; [|contradiction]. congruence.
Qed.

Lemma run_validators_in_order : forall (vs : list callback) x w, run_validators vs x w = in_order vs x w.
Proof.
  induction vs as [|v r IH]; intros x w; cbn; [reflexivity|]. unfold bind.
  destruct (v x w) as [[y|e] w1]; [apply IH|reflexivity].
Qed.

Lemma no_validators : forall k ts vs, tok_validators P k ts = Ok vs -> existsb is_validation ts = false -> vs = [].
Proof.
  induction ts as [|t r IH]; intros vs H E; cbn in *; [congruence|].
  apply orb_false_elim in E. destruct E as [E1 E2]. destruct t; try (apply IH; assumption). discriminate.
Qed.

Lemma no_coercers : forall k ts cs, tok_coercers P k ts = Ok cs -> has_coercer ts = false -> cs = [].
Proof.
  intros k ts cs H E. destruct cs as [|c r]; [reflexivity|].
  assert (has_coercer ts = true) by (eapply coercers_nonempty; [exact H|discriminate]). congruence.
Qed.

Lemma declared_coercers_nonempty : forall o ts cs, declared_coercers P o ts cs -> (cs = [] <-> has_coercer ts = false).
Proof.
  unfold declared_coercers, has_coercer. intros o ts. induction ts as [|t r IH]; intros cs H; cbn in *.
  - inversion H; tauto.
  - destruct t; cbn in *; try (apply IH; assumption). inversion H; subst. split; discriminate.
Qed.

(** ** Making fillers forward *)

Lemma aapplys_fwd : forall ts (a : afiller) cs vs,
  tok_coercers P (a_kind a) ts = Ok cs -> tok_validators P (a_kind a) ts = Ok vs -> a_bound a = false ->
  aapplys P a ts = Ok (AF (a_kind a) (a_args a) (style_after (a_style a) ts) (a_coercers a ++ cs) (a_validators a ++ vs) false).
Proof.
  induction ts as [|t r IH]; intros a cs vs HC HV HB; cbn in *.
  - injection HC as <-. injection HV as <-. rewrite !app_nil_r. destruct a; cbn in *; subst; reflexivity.
  - unfold aapply. rewrite HB. destruct t as [s|c|v|]; cbn.
    + rewrite (IH (AF (a_kind a) (a_args a) s (a_coercers a) (a_validators a) false) cs vs); auto.
    + oinv HC. oinv HC. injection HC as <-. rewrite HCa. cbn.
      rewrite (IH (AF (a_kind a) (a_args a) (a_style a) (a_coercers a ++ [a0]) (a_validators a) false) a1 vs); auto.
      cbn. rewrite <- app_assoc. reflexivity.
    + oinv HV. oinv HV. injection HV as <-. rewrite HVa. cbn.
      rewrite (IH (AF (a_kind a) (a_args a) (a_style a) (a_coercers a) (a_validators a ++ [a0]) false) cs a1); auto.
      cbn. rewrite <- app_assoc. reflexivity.
    + rewrite (IH a cs vs); auto.
Qed.

Lemma tok_coercers_split : forall k ts us cs, tok_coercers P k (ts ++ us) = Ok cs ->
  exists c1 c2, tok_coercers P k ts = Ok c1 /\ tok_coercers P k us = Ok c2 /\ cs = c1 ++ c2.
Proof.
  induction ts as [|t r IH]; intros us cs H; cbn in *; [eauto|].
  destruct t; try (apply IH in H; exact H). oinv H. oinv H. injection H as <-.
  apply IH in Ha0. destruct Ha0 as (c1 & c2 & -> & -> & ->). rewrite Ha. cbn. eauto.
Qed.

Lemma tok_validators_split : forall k ts us cs, tok_validators P k (ts ++ us) = Ok cs ->
  exists c1 c2, tok_validators P k ts = Ok c1 /\ tok_validators P k us = Ok c2 /\ cs = c1 ++ c2.
Proof.
  induction ts as [|t r IH]; intros us cs H; cbn in *; [eauto|].
  destruct t; try (apply IH in H; exact H). oinv H. oinv H. injection H as <-.
  apply IH in Ha0. destruct Ha0 as (c1 & c2 & -> & -> & ->). rewrite Ha. cbn. eauto.
Qed.

(** the whole life of an AnnotatedFiller up to binding, as one equation *)
Lemma bound_fwd : forall dflt pre k own cs vs,
  tok_coercers P k (pre ++ own) = Ok cs -> tok_validators P k (pre ++ own) = Ok vs ->
  (do a1 <- aapplys P (mk_afiller k own) pre; abind P dflt a1) =
  let s := eff_style dflt (pre ++ own) in
  if style_eqb s SHollow && negb (match cs with [] => true | _ => false end)
  then Raise (mkexc ValueError "cannot have hollow type checking with coercers") else
  match k with
  | KLiteral _ _ => Ok (AF k own s cs (vs ++ lit_validators P k s) true)
  | _ => if style_eqb s SStrict && kind_abstract P k
         then Raise (mkexc TypeError "cannot create strict checker for abstract class")
         else Ok (AF k own s cs (vs ++ lit_validators P k s) true)
  end.
Proof.
  intros dflt pre k own cs vs HC HV.
  apply tok_coercers_split in HC. destruct HC as (c1 & c2 & C1 & C2 & ->).
  apply tok_validators_split in HV. destruct HV as (v1 & v2 & V1 & V2 & ->).
  rewrite (aapplys_fwd pre (mk_afiller k own) c1 v1 C1 V1 eq_refl). cbn [obind mk_afiller a_kind a_args a_style a_coercers a_validators a_bound app].
  unfold abind. cbn [a_args].
  rewrite (aapplys_fwd own (AF k own (style_after SDefault pre) c1 v1 false) c2 v2); auto. cbn.
  rewrite last_style_app, eff_style_eq. set (s := eff_style dflt (pre ++ own)).
  destruct (style_eqb s SHollow && _) eqn:E1; [reflexivity|].
  destruct k; cbn; try (destruct (style_eqb s SStrict && _); rewrite ?app_nil_r; reflexivity).
  unfold ahollow; cbn. destruct (style_eqb s SHollow); cbn; rewrite ?app_nil_r; reflexivity.
Qed.

Lemma bind_with_applys_conv : forall dflt ts f f',
  bind_with P dflt ts f = Ok f' -> exists f1, applys P f ts = Ok f1 /\ bind_with P dflt [] f1 = Ok f'.
Proof.
  intros dflt. induction ts as [|t r IH]; intros f f' H; [exists f; auto|].
  assert (HA : exists f1, apply P f t = Ok f1).
  { destruct f; cbn in H; try (oinv H; cbn in Ha; oinv Ha; cbn; rewrite Haa; cbn; eauto).
    - discriminate.
    - destruct bound; [discriminate|]. cbn. eauto. }
  destruct HA as (f1 & HA). rewrite <- (bind_with_apply P dflt r t f f1 HA) in H.
  apply IH in H. destruct H as (f2 & H1 & H2). exists f2. cbn. rewrite HA. cbn. auto.
Qed.

Lemma own_ops_own_only : forall (ts : list token), own_ops (own_only ts) = ts.
Proof. induction ts as [|t r IH]; cbn; [reflexivity|]. f_equal. exact IH. Qed.

Lemma sub_ops_own_only : forall (ts : list token) n, sub_ops (own_only ts) n = [].
Proof. unfold sub_ops. induction ts as [|t r IH]; intros; cbn; [reflexivity|]. apply IH. Qed.

Lemma apply_ops_own_only : forall ts f, apply_ops P f (own_only ts) = applys P f ts.
Proof.
  induction ts as [|t r IH]; intros f; cbn; [reflexivity|].
  destruct (apply P f t) as [f1|e]; cbn; [apply IH|reflexivity].
Qed.

(** a part of an annotation is filled as a field of its own would be *)
Lemma part_make : forall dflt h f s1 ts u s2,
  gaf P [] h = Ok f -> applys P f ts = Ok s1 -> bind_with P dflt u s1 = Ok s2 ->
  make_filler P dflt h (own_only (ts ++ u)) = Ok s2.
Proof.
  intros dflt h f s1 ts u s2 HG HA HB. unfold make_filler, get_filler, bind_filler. rewrite HG. cbn.
  rewrite apply_ops_own_only.
  rewrite (bind_with_applys P _ _ _ _ _ HA) in HB.
  apply bind_with_applys_conv in HB. destruct HB as (f1 & -> & HB). exact HB.
Qed.

(** ** Leaves *)

Definition leaf_kind (h : hint) : option akind :=
  match h with
  | HTy t | HBare t => Some (class_kind P t)
  | HNone => Some KNone
  | HCallable => Some KCallable
  | HAny => Some (KSimple (t_object P))
  | HLiteral lid vals => Some (KLiteral lid vals)
  | _ => None
  end.

Lemma leaf_gaf : forall h k args, leaf_kind h = Some k -> gaf P args h = Ok (FAnn (mk_afiller k args)).
Proof. intros h k args H. destruct h; cbn in *; try discriminate; injection H as <-; reflexivity. Qed.

Lemma leaf_make : forall h k dflt toks ops f,
  leaf_kind h = Some k -> make_filler P dflt (HAnn h toks) ops = Ok f ->
  exists cs vs, tok_coercers P k (own_ops ops ++ toks) = Ok cs /\ tok_validators P k (own_ops ops ++ toks) = Ok vs /\
    let s := eff_style dflt (own_ops ops ++ toks) in
    f = FAnn (AF k toks s cs (vs ++ lit_validators P k s) true) /\
    (s = SHollow -> cs = []) /\ (s = SStrict -> kind_abstract P k = false).
Proof.
  intros h k dflt toks ops f HK H. unfold make_filler, get_filler, bind_filler in H. cbn in H.
  rewrite app_nil_r in H. rewrite (leaf_gaf _ _ _ HK) in H. cbn in H. oinv H.
  apply ops_ann in Ha. destruct Ha as (a1 & -> & HA). cbn in H. oinv H. injection H as <-.
  destruct (bound_afiller P _ _ _ _ _ _ HA Ha) as (cs & vs & C & V & -> & H1 & H2).
  exists cs, vs. cbn. auto.
Qed.

(** ** Hollow annotations *)

Lemma all_i_nth : forall {A} (p : nat -> A -> bool) l i,
  all_i p i l = true <-> forall n a, nth_error l n = Some a -> p (i + n) a = true.
Proof.
  intros A p l; induction l as [|a r IH]; intros i; cbn.
  - split; [|reflexivity]. intros _ [|n] a E; discriminate.
  - rewrite andb_true_iff, IH. split.
    + intros [H1 H2] [|n] b E; cbn in E.
      * injection E as <-. rewrite Nat.add_0_r. assumption.
      * rewrite Nat.add_succ_r. apply H2. assumption.
    + intro H. split.
      * specialize (H 0 a eq_refl). rewrite Nat.add_0_r in H. assumption.
      * intros n b E. specialize (H (S n) b E). rewrite Nat.add_succ_r in H. assumption.
Qed.

Lemma forallb_nth : forall {A} (p : A -> bool) l,
  forallb p l = true <-> forall n a, nth_error l n = Some a -> p a = true.
Proof.
  intros A p l. rewrite forallb_forall. split.
  - intros H n a E. apply H. eapply nth_error_In; eassumption.
  - intros H a HI. apply In_nth_error in HI. destruct HI as [n E]. eapply H; eassumption.
Qed.

Definition hollow_at (h : hint) : Prop :=
  forall own f ops f1 dflt t f',
    gaf P own h = Ok f -> apply_ops P f ops = Ok f1 -> bind_with P dflt t f1 = Ok f' ->
    is_hollow f' = hollow_hint dflt (sub_ops ops) (own_ops ops ++ t) own h.

Lemma afiller_style : forall dflt k own ops t a1 b1 a2,
  aapplys P (mk_afiller k own) (own_ops ops) = Ok a1 -> aapplys P a1 t = Ok b1 -> abind P dflt b1 = Ok a2 ->
  ahollow a2 = style_eqb (eff_style dflt ((own_ops ops ++ t) ++ own)) SHollow.
Proof.
  intros dflt k own ops t a1 b1 a2 H1 H2 H3.
  destruct (aapplys_abind P _ _ _ _ _ _ _ _ H1 H2 H3) as [_ HS]. unfold ahollow. rewrite HS. reflexivity.
Qed.

Lemma bool_eq_iff : forall a b : bool, (a = true <-> b = true) -> a = b.
Proof. intros [|] [|] H; try reflexivity; intuition congruence. Qed.

Lemma ahollow_add : forall (a : afiller) v, ahollow (add_validator a v) = ahollow a.
Proof. reflexivity. Qed.

Lemma hollow_correct : forall h, hollow_at h.
Proof.
  induction h as [t0| | | |h IH|hs IH|lid vals|base|hs IH|h IH|rk t0 h IH|rk t0 hk hv IHk IHv|t0 hs IH|t0| |h toks IH]
    using hint_ind'; intros own f ops f1 dflt t f' HG HO HB;
    try (cbn in HG; injection HG as <-; apply ops_ann in HO; destruct HO as (a1 & -> & HO);
         cbn in HB; oinv HB; oinv HB; injection HB as <-; cbn; eapply afiller_style; eassumption).
  - (* HNewType *)
    assert (D : (exists h' ts, h = HAnn h' ts) \/ (forall A (x y : A), match h with HAnn _ _ => x | _ => y end = y)).
    { destruct h; auto. left; eauto. }
    destruct D as [(h' & ts & ->)|D].
    + cbn in HG. unfold dumb in HG. destruct own; [|discriminate]. injection HG as <-.
      apply ops_dumb in HO. destruct HO as [-> ->]. cbn in HB. destruct t; [|discriminate].
      destruct (style_eqb dflt SHollow); [|discriminate]. injection HB as <-. reflexivity.
    + assert (HG' : gaf P own h = Ok f) by (rewrite <- HG; cbn; symmetry; apply (D (outcome filler))).
      rewrite (IH own f ops f1 dflt t f' HG' HO HB). cbn. symmetry. apply (D bool).
  - (* HUnion *)
    cbn in HG. oinv HG. injection HG as <-. apply ops_union in HO. destruct HO as (subs1 & -> & HS).
    cbn in HB. oinv HB. injection HB as <-. cbn [app] in HBa. cbn [is_hollow hollow_hint].
    assert (MEM : forall n s2 h', nth_error a0 n = Some s2 -> nth_error hs n = Some h' ->
      is_hollow s2 = hollow_hint dflt no_sub_tokens (sub_ops ops n ++ own ++ (own_ops ops ++ t)) [] h').
    { intros n s2 h' E2 Eh. destruct (mapO_nth' _ _ _ _ _ HBa E2) as (s1 & E1 & B1).
      destruct (subs_after_back P _ _ _ _ _ HS E1) as (s & E & A).
      destruct (mapO_nth' _ _ _ _ _ HGa E) as (h'' & Eh' & G). rewrite Eh in Eh'. injection Eh' as <-.
      rewrite (bind_with_applys P _ _ _ _ _ A) in B1.
      rewrite (nth_error_Forall _ _ _ _ IH Eh [] s [] s dflt _ s2 G eq_refl B1). reflexivity. }
    apply bool_eq_iff. rewrite forallb_nth, all_i_nth. cbn. split; intros H n z E.
    + assert (exists s2, nth_error a0 n = Some s2) as [s2 E2].
      { destruct (nth_error a0 n) eqn:EE; [eauto|]. apply nth_error_None in EE.
        apply mapO_length in HBa. apply mapO_length in HGa. destruct HS as [LL _].
        rewrite HBa, LL, HGa in EE. apply nth_error_None in EE. congruence. }
      rewrite <- (MEM _ _ _ E2 E). eapply H; eassumption.
    + assert (exists h2, nth_error hs n = Some h2) as [h2 E2].
      { destruct (nth_error hs n) eqn:EE; [eauto|]. apply nth_error_None in EE.
        apply mapO_length in HBa. apply mapO_length in HGa. destruct HS as [LL _].
        rewrite <- HGa, <- LL, <- HBa in EE. apply nth_error_None in EE. congruence. }
      rewrite (MEM _ _ _ E E2). eapply H; eassumption.
  - (* HType *)
    cbn in HG. injection HG as <-. apply ops_type in HO. destruct HO as (a1 & -> & HO).
    cbn in HB. oinv HB. oinv HB. injection HB as <-.
    pose proof (afiller_style _ _ _ _ _ _ _ _ HO HBa HBa0) as HST. cbn.
    destruct (ahollow a0) eqn:E; rewrite ?ahollow_add, ?E; assumption.
  - (* HTupleN *)
    cbn in HG. oinv HG. injection HG as <-. apply ops_tuplen in HO. destruct HO as (a1 & subs1 & -> & HO & HS).
    cbn in HB. oinv HB. oinv HB. oinv HB.
    pose proof (afiller_style _ _ _ _ _ _ _ _ HO HBa HBa0) as HST. cbn.
    destruct (forallb is_hollow a3).
    + injection HB as <-. cbn. destruct (ahollow a2) eqn:E; rewrite ?ahollow_add, ?E; assumption.
    + match type of HB with context [if ?b then Raise _ else _] => destruct b eqn:HH; [discriminate|] end.
      injection HB as <-. cbn. rewrite ahollow_add. destruct (ahollow a2) eqn:E; rewrite ?ahollow_add in *; congruence.
  - (* HTupleV *)
    cbn in HG. oinv HG. injection HG as <-. apply ops_tuplev in HO. destruct HO as (a1 & sub1 & -> & HO & HS).
    cbn in HB. oinv HB. oinv HB. oinv HB.
    pose proof (afiller_style _ _ _ _ _ _ _ _ HO HBa HBa0) as HST. cbn.
    destruct (is_hollow a3); [injection HB as <-; assumption|].
    destruct (ahollow a2) eqn:E; [discriminate|]. injection HB as <-. cbn. rewrite ahollow_add. congruence.
  - (* HIter *)
    cbn in HG. oinv HG. injection HG as <-. apply ops_iter in HO. destruct HO as (a1 & sub1 & -> & HO & HS).
    cbn in HB. oinv HB. oinv HB. oinv HB.
    pose proof (afiller_style _ _ _ _ _ _ _ _ HO HBa HBa0) as HST. cbn.
    destruct (is_hollow a3); [injection HB as <-; assumption|].
    destruct (ahollow a2) eqn:E; [discriminate|]. injection HB as <-. cbn. rewrite ahollow_add. congruence.
  - (* HMap *)
    cbn in HG. oinv HG. oinv HG. injection HG as <-. apply ops_map in HO.
    destruct HO as (a1 & fk1 & fv1 & -> & HO & HSk & HSv).
    cbn in HB. oinv HB. oinv HB. oinv HB. oinv HB.
    pose proof (afiller_style _ _ _ _ _ _ _ _ HO HBa HBa0) as HST. cbn.
    destruct (is_hollow a4 && is_hollow a5); [injection HB as <-; assumption|].
    destruct (ahollow a3) eqn:E; [discriminate|]. injection HB as <-. cbn. rewrite ahollow_add. congruence.
  - (* HGenN *)
    cbn in HG. oinv HG. injection HG as <-. apply ops_genn in HO. destruct HO as (a1 & -> & HO).
    cbn in HB. oinv HB. oinv HB. oinv HB. injection HB as <-. cbn. eapply afiller_style; eassumption.
  - (* HOther *)
    cbn in HG. unfold dumb in HG. destruct own; [|discriminate]. injection HG as <-.
    apply ops_dumb in HO. destruct HO as [-> ->]. cbn in HB. destruct t; [|discriminate].
    destruct (style_eqb dflt SHollow); [|discriminate]. injection HB as <-. reflexivity.
  - (* HAnn *)
    cbn in HG. cbn. eapply IH; eassumption.
Qed.

Lemma make_hollow : forall dflt h ops f,
  make_filler P dflt h ops = Ok f -> is_hollow f = hollow_hint dflt (sub_ops ops) (own_ops ops) [] h.
Proof.
  intros dflt h ops f H. unfold make_filler, get_filler, bind_filler in H. oinv H. oinv H.
  rewrite (hollow_correct h [] _ _ _ _ _ _ Ha Ha0 H). rewrite app_nil_r. reflexivity.
Qed.

(** ** Hollow annotations without validators *)

Definition raw_at (h : hint) : Prop :=
  forall own f ops f1 dflt t f',
    gaf P own h = Ok f -> apply_ops P f ops = Ok f1 -> bind_with P dflt t f1 = Ok f' ->
    hollow_hint dflt (sub_ops ops) (own_ops ops ++ t) own h = true ->
    unvalidated (sub_ops ops) (own_ops ops ++ t) own h = true ->
    forall x w, fill P f' x w = (Ok (x, PHollow), w).

Lemma raw_afill : forall dflt k own ops t a1 b1 a2,
  aapplys P (mk_afiller k own) (own_ops ops) = Ok a1 -> aapplys P a1 t = Ok b1 -> abind P dflt b1 = Ok a2 ->
  style_eqb (eff_style dflt ((own_ops ops ++ t) ++ own)) SHollow = true ->
  negb (existsb is_validation ((own_ops ops ++ t) ++ own)) = true ->
  forall x w, afill P a2 x w = (Ok (x, PHollow), w).
Proof.
  intros dflt k own ops t a1 b1 a2 H1 H2 H3 HS HV x w.
  destruct (aapplys_abind P _ _ _ _ _ _ _ _ H1 H2 H3) as [HA _].
  destruct (bound_afiller P _ _ _ _ _ _ HA H3) as (cs & vs & C & V & -> & _).
  apply negb_true_iff in HV. pose proof (no_validators _ _ _ V HV) as ->.
  destruct (style_eqb_spec (eff_style dflt ((own_ops ops ++ t) ++ own)) SHollow) as [E|]; [|discriminate].
  rewrite E. unfold afill, lit_validators. cbn. destruct k; reflexivity.
Qed.

Lemma raw_correct : forall h, raw_at h.
Proof.
  induction h as [t0| | | |h IH|hs IH|lid vals|base|hs IH|h IH|rk t0 h IH|rk t0 hk hv IHk IHv|t0 hs IH|t0| |h toks IH]
    using hint_ind'; intros own f ops f1 dflt t f' HG HO HB HH HV x w;
    pose proof (hollow_correct _ _ _ _ _ _ _ _ HG HO HB) as HC;
    try (cbn in HG; injection HG as <-; apply ops_ann in HO; destruct HO as (a1 & -> & HO);
         cbn in HB; oinv HB; oinv HB; injection HB as <-; cbn; eapply raw_afill; eassumption).
  - (* HNewType *)
    assert (D : (exists h' ts, h = HAnn h' ts) \/ (forall A (x y : A), match h with HAnn _ _ => x | _ => y end = y)).
    { destruct h; auto. left; eauto. }
    destruct D as [(h' & ts & ->)|D].
    + cbn in HG. unfold dumb in HG. destruct own; [|discriminate]. injection HG as <-.
      apply ops_dumb in HO. destruct HO as [-> ->]. cbn in HB. destruct t; [|discriminate].
      destruct (style_eqb dflt SHollow); [|discriminate]. injection HB as <-. reflexivity.
    + assert (HG' : gaf P own h = Ok f) by (rewrite <- HG; cbn; symmetry; apply (D (outcome filler))).
      eapply (IH own f ops f1 dflt t f' HG' HO HB).
      * rewrite <- HH. cbn. symmetry. apply (D bool).
      * rewrite <- HV. cbn. symmetry. apply (D bool).
  - (* HUnion *)
    rewrite HH in HC. cbn in HG. oinv HG. injection HG as <-. apply ops_union in HO. destruct HO as (subs1 & -> & HS).
    cbn in HB. oinv HB. injection HB as <-. cbn in HC. cbn. rewrite HC. reflexivity.
  - (* HType *)
    cbn in HG. injection HG as <-. apply ops_type in HO. destruct HO as (a1 & -> & HO).
    cbn in HB. oinv HB. oinv HB. injection HB as <-.
    pose proof (afiller_style _ _ _ _ _ _ _ _ HO HBa HBa0) as HST. cbn in HH. rewrite HH in HST. cbn.
    rewrite HST. eapply raw_afill; eassumption.
  - (* HTupleN *)
    cbn in HG. oinv HG. injection HG as <-. apply ops_tuplen in HO. destruct HO as (a1 & subs1 & -> & HO & HS).
    cbn in HB. oinv HB. oinv HB. oinv HB.
    pose proof (afiller_style _ _ _ _ _ _ _ _ HO HBa HBa0) as HST. cbn in HH. rewrite HH in HST. rewrite HST in HB.
    rewrite HST in HB. destruct (forallb is_hollow a3); [|discriminate]. injection HB as <-. cbn. eapply raw_afill; eassumption.
  - (* HTupleV *)
    cbn in HG. oinv HG. injection HG as <-. apply ops_tuplev in HO. destruct HO as (a1 & sub1 & -> & HO & HS).
    cbn in HB. oinv HB. oinv HB. oinv HB.
    pose proof (afiller_style _ _ _ _ _ _ _ _ HO HBa HBa0) as HST. cbn in HH. rewrite HH in HST. rewrite HST in HB.
    destruct (is_hollow a3); [|discriminate]. injection HB as <-. cbn. eapply raw_afill; eassumption.
  - (* HIter *)
    cbn in HG. oinv HG. injection HG as <-. apply ops_iter in HO. destruct HO as (a1 & sub1 & -> & HO & HS).
    cbn in HB. oinv HB. oinv HB. oinv HB.
    pose proof (afiller_style _ _ _ _ _ _ _ _ HO HBa HBa0) as HST. cbn in HH. rewrite HH in HST. rewrite HST in HB.
    destruct (is_hollow a3); [|discriminate]. injection HB as <-. cbn. eapply raw_afill; eassumption.
  - (* HMap *)
    cbn in HG. oinv HG. oinv HG. injection HG as <-. apply ops_map in HO.
    destruct HO as (a1 & fk1 & fv1 & -> & HO & HSk & HSv).
    cbn in HB. oinv HB. oinv HB. oinv HB. oinv HB.
    pose proof (afiller_style _ _ _ _ _ _ _ _ HO HBa HBa0) as HST. cbn in HH. rewrite HH in HST. rewrite HST in HB.
    destruct (is_hollow a4 && is_hollow a5); [|discriminate]. injection HB as <-. cbn. eapply raw_afill; eassumption.
  - (* HGenN *)
    cbn in HG. oinv HG. injection HG as <-. apply ops_genn in HO. destruct HO as (a1 & -> & HO).
    cbn in HB. oinv HB. oinv HB. oinv HB. injection HB as <-. cbn. eapply raw_afill; eassumption.
  - (* HOther *)
    cbn in HG. unfold dumb in HG. destruct own; [|discriminate]. injection HG as <-.
    apply ops_dumb in HO. destruct HO as [-> ->]. cbn in HB. destruct t; [|discriminate].
    destruct (style_eqb dflt SHollow); [|discriminate]. injection HB as <-. reflexivity.
  - (* HAnn *)
    cbn in HG. eapply (IH (toks ++ own)); eassumption.
Qed.

End Shape.
