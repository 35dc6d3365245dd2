(** Filler_sound.v -- type soundness of filling: what a bound filler returns
    conforms to the annotation it was built from. *)
From Verif Require Import Base Py Filler Spec_Filler Filler_proofs.

Section Sound.
Context {obj ty W : Type} (P : Py obj ty W).
Notation token := (@token obj ty W).
Notation hint := (@hint obj ty W).
Notation origin := (@origin ty).
Notation filler := (@filler obj ty W).
Notation afiller := (@afiller obj ty W).
Notation callback := (@callback obj W).
Notation akind := (@akind obj ty).
Notation op := (option nat * token)%type.

(** ** The effect of pre_bind operations on each shape of filler *)

Lemma update_nth_ok : forall n g (l l' : list filler),
  update_nth n g l = Ok l' ->
  List.length l' = List.length l /\
  forall m s, nth_error l m = Some s ->
    exists s', nth_error l' m = Some s' /\ (if Nat.eqb m n then g s = Ok s' else s' = s).
Proof.
  induction n as [|n IH]; intros g [|f r] l' H; cbn in H; try discriminate; oinv H; injection H as <-.
  - split; [reflexivity|]. intros [|m] s E; cbn in *.
    + injection E as <-. eauto.
    + eauto.
  - apply IH in Ha. destruct Ha as [L HN]. split; [cbn; congruence|].
    intros [|m] s E; cbn in *.
    + injection E as <-. eauto.
    + apply HN. assumption.
Qed.

Lemma applys_snoc : forall ts t (f f1 f2 : filler),
  applys P f ts = Ok f1 -> apply P f1 t = Ok f2 -> applys P f (ts ++ [t]) = Ok f2.
Proof. intros. rewrite applys_app, H. cbn. rewrite H0. reflexivity. Qed.

Lemma aapplys_snoc : forall ts t (f f1 f2 : afiller),
  aapplys P f ts = Ok f1 -> aapply P f1 t = Ok f2 -> aapplys P f (ts ++ [t]) = Ok f2.
Proof. intros. rewrite aapplys_app, H. cbn. rewrite H0. reflexivity. Qed.

(** operations on a list of sub-fillers *)
Definition subs_after (ops : list op) (subs subs1 : list filler) : Prop :=
  List.length subs1 = List.length subs /\
  forall n s, nth_error subs n = Some s ->
    exists s1, nth_error subs1 n = Some s1 /\ applys P s (sub_ops ops n) = Ok s1.

Lemma subs_after_nil : forall subs, subs_after [] subs subs.
Proof. intros; split; [reflexivity|]. intros n s E; exists s. auto. Qed.

Lemma subs_after_none : forall t ops subs subs1,
  subs_after ops subs subs1 -> subs_after ((None, t) :: ops) subs subs1.
Proof. intros. exact H. Qed.

Lemma subs_after_some : forall n t ops subs subs1 subs2,
  update_nth n (fun sf => apply P sf t) subs = Ok subs1 ->
  subs_after ops subs1 subs2 -> subs_after ((Some n, t) :: ops) subs subs2.
Proof.
  intros n t ops subs subs1 subs2 HU [L HS]. apply update_nth_ok in HU. destruct HU as [L1 HU].
  split; [congruence|]. intros m s E. destruct (HU _ _ E) as (s1 & E1 & G).
  destruct (HS _ _ E1) as (s2 & E2 & A). exists s2. split; [assumption|].
  unfold sub_ops in *. cbn. destruct (Nat.eqb m n); cbn.
  - rewrite G. cbn. assumption.
  - subst s1. assumption.
Qed.

Lemma ops_union : forall ops args applied subs b f1,
  apply_ops P (FUnion args applied subs b) ops = Ok f1 ->
  exists subs1, f1 = FUnion args (applied ++ own_ops ops) subs1 b /\ subs_after ops subs subs1.
Proof.
  induction ops as [|[[n|] t] r IH]; intros args applied subs b f1 H; cbn in H.
  - injection H as <-. exists subs. cbn. rewrite app_nil_r. split; [reflexivity|apply subs_after_nil].
  - oinv H. oinv Ha. injection Ha as <-. apply IH in H. destruct H as (s1 & -> & HS).
    exists s1. split; [reflexivity|]. eapply subs_after_some; eassumption.
  - oinv H. destruct b; [discriminate|]. injection Ha as <-. apply IH in H. destruct H as (s1 & -> & HS).
    exists s1. cbn. rewrite <- app_assoc. split; [reflexivity|]. assumption.
Qed.

Lemma ops_ann : forall ops a f1,
  apply_ops P (FAnn a) ops = Ok f1 ->
  exists a1, f1 = FAnn a1 /\ aapplys P a (own_ops ops) = Ok a1.
Proof.
  induction ops as [|[[n|] t] r IH]; intros a f1 H; cbn in H.
  - injection H as <-. exists a. auto.
  - discriminate.
  - oinv H. oinv Ha. injection Ha as <-. apply IH in H. destruct H as (a2 & -> & HA).
    exists a2. split; [reflexivity|]. cbn. rewrite Haa. assumption.
Qed.

Lemma ops_type : forall ops b base a f1,
  apply_ops P (FType b a base) ops = Ok f1 ->
  exists a1, f1 = FType b a1 base /\ aapplys P a (own_ops ops) = Ok a1.
Proof.
  induction ops as [|[[n|] t] r IH]; intros b base a f1 H; cbn in H.
  - injection H as <-. exists a. auto.
  - discriminate.
  - oinv H. oinv Ha. injection Ha as <-. apply IH in H. destruct H as (a2 & -> & HA).
    exists a2. split; [reflexivity|]. cbn. rewrite Haa. assumption.
Qed.

Lemma ops_genn : forall ops b subs a f1,
  apply_ops P (FGenN b a subs) ops = Ok f1 ->
  exists a1, f1 = FGenN b a1 subs /\ aapplys P a (own_ops ops) = Ok a1.
Proof.
  induction ops as [|[[n|] t] r IH]; intros b subs a f1 H; cbn in H.
  - injection H as <-. exists a. auto.
  - discriminate.
  - oinv H. oinv Ha. injection Ha as <-. apply IH in H. destruct H as (a2 & -> & HA).
    exists a2. split; [reflexivity|]. cbn. rewrite Haa. assumption.
Qed.

Lemma ops_dumb : forall ops b f1, apply_ops P (FDumb b) ops = Ok f1 -> ops = [] /\ f1 = FDumb b.
Proof. intros [|[[n|] t] r] b f1 H; cbn in H; try discriminate. injection H as <-. auto. Qed.

Lemma ops_tuplen : forall ops b a subs f1,
  apply_ops P (FTupleN b a subs) ops = Ok f1 ->
  exists a1 subs1, f1 = FTupleN b a1 subs1 /\ aapplys P a (own_ops ops) = Ok a1 /\ subs_after ops subs subs1.
Proof.
  induction ops as [|[[n|] t] r IH]; intros b a subs f1 H; cbn in H.
  - injection H as <-. exists a, subs. split; [reflexivity|]. split; [reflexivity|apply subs_after_nil].
  - oinv H. oinv Ha. injection Ha as <-. apply IH in H. destruct H as (a2 & s1 & -> & HA & HS).
    exists a2, s1. split; [reflexivity|]. split; [assumption|]. eapply subs_after_some; eassumption.
  - oinv H. oinv Ha. injection Ha as <-. apply IH in H. destruct H as (a2 & s1 & -> & HA & HS).
    exists a2, s1. split; [reflexivity|]. split; [cbn; rewrite Haa; assumption|assumption].
Qed.

Lemma ops_tuplev : forall ops b a sub f1,
  apply_ops P (FTupleV b a sub) ops = Ok f1 ->
  exists a1 sub1, f1 = FTupleV b a1 sub1 /\ aapplys P a (own_ops ops) = Ok a1 /\
                  applys P sub (sub_ops ops 0) = Ok sub1.
Proof.
  induction ops as [|[[n|] t] r IH]; intros b a sub f1 H; cbn in H.
  - injection H as <-. exists a, sub. auto.
  - destruct n; [|discriminate]. oinv H. oinv Ha. injection Ha as <-. apply IH in H. destruct H as (a2 & s1 & -> & HA & HS).
    exists a2, s1. split; [reflexivity|]. split; [assumption|]. unfold sub_ops; cbn. rewrite Haa. assumption.
  - oinv H. oinv Ha. injection Ha as <-. apply IH in H. destruct H as (a2 & s1 & -> & HA & HS).
    exists a2, s1. split; [reflexivity|]. split; [cbn; rewrite Haa; assumption|assumption].
Qed.

Lemma ops_iter : forall ops rk b a sub f1,
  apply_ops P (FIter rk b a sub) ops = Ok f1 ->
  exists a1 sub1, f1 = FIter rk b a1 sub1 /\ aapplys P a (own_ops ops) = Ok a1 /\
                  applys P sub (sub_ops ops 0) = Ok sub1.
Proof.
  induction ops as [|[[n|] t] r IH]; intros rk b a sub f1 H; cbn in H.
  - injection H as <-. exists a, sub. auto.
  - destruct n; [|discriminate]. oinv H. oinv Ha. injection Ha as <-. apply IH in H. destruct H as (a2 & s1 & -> & HA & HS).
    exists a2, s1. split; [reflexivity|]. split; [assumption|]. unfold sub_ops; cbn. rewrite Haa. assumption.
  - oinv H. oinv Ha. injection Ha as <-. apply IH in H. destruct H as (a2 & s1 & -> & HA & HS).
    exists a2, s1. split; [reflexivity|]. split; [cbn; rewrite Haa; assumption|assumption].
Qed.

Lemma ops_map : forall ops rk b a fk fv f1,
  apply_ops P (FMap rk b a fk fv) ops = Ok f1 ->
  exists a1 fk1 fv1, f1 = FMap rk b a1 fk1 fv1 /\ aapplys P a (own_ops ops) = Ok a1 /\
                  applys P fk (sub_ops ops 0) = Ok fk1 /\ applys P fv (sub_ops ops 1) = Ok fv1.
Proof.
  induction ops as [|[[n|] t] r IH]; intros rk b a fk fv f1 H; cbn in H.
  - injection H as <-. exists a, fk, fv. auto.
  - destruct n as [|[|n]]; [| |discriminate]; oinv H; oinv Ha; injection Ha as <-; apply IH in H;
      destruct H as (a2 & s1 & s2 & -> & HA & HS & HT); exists a2, s1, s2; unfold sub_ops; cbn; rewrite Haa; auto.
  - oinv H. oinv Ha. injection Ha as <-. apply IH in H. destruct H as (a2 & s1 & s2 & -> & HA & HS & HT).
    exists a2, s1, s2. cbn; rewrite Haa. auto.
Qed.

(** ** Asserting tokens *)

Lemma asserting_pre : forall (ops : list op) t own h,
  Forall asserting (hint_tokens h ++ own ++ map snd ops ++ t) ->
  Forall asserting ((own_ops ops ++ t) ++ own).
Proof.
  intros ops t own h H. rewrite !Forall_app in *. destruct H as (_ & Ho & Hops & Ht).
  split; [split; [|assumption]|assumption]. clear - Hops.
  induction ops as [|[[n|] x] r IH]; cbn in *; [constructor|inversion Hops; auto|].
  inversion Hops; subst. constructor; auto.
Qed.

Lemma asserting_sub : forall (ops : list op) n, Forall asserting (map snd ops) -> Forall asserting (sub_ops ops n).
Proof.
  unfold sub_ops. induction ops as [|[[m|] x] r IH]; intros n H; cbn in *; [constructor| |inversion H; auto].
  inversion H; subst. destruct (Nat.eqb n m); cbn; [constructor|]; auto.
Qed.

(** ** One AnnotatedFiller *)

Lemma afill_asserting : forall dflt pre k own a1 a2 extra x w y p w',
  aapplys P (mk_afiller k own) pre = Ok a1 -> abind P dflt a1 = Ok a2 ->
  Forall asserting (pre ++ own) ->
  afill P (AF (a_kind a2) (a_args a2) (a_style a2) (a_coercers a2) (a_validators a2 ++ extra) (a_bound a2)) x w
    = (Ok (y, p), w') ->
  exists z w1, kind_ok P (eff_style dflt (pre ++ own)) k (a_coercers a2) z /\
    (a_coercers a2 <> [] -> has_coercer (pre ++ own) = true) /\
    (forall lid vals, k = KLiteral lid vals -> checked (eff_style dflt (pre ++ own))
        (exists l, In l vals /\ type_of P z = type_of P l /\ lit_eq P z l = true)) /\
    accepted (pre ++ own) (origin_of P k) z /\
    run_validators extra z w1 = (Ok y, w').
Proof.
  intros dflt pre k own a1 a2 extra x w y p w' H1 H2 HA H.
  destruct (bound_afiller P _ _ _ _ _ _ H1 H2) as (cs & vs & C & V & -> & _ & _). clear H1 H2.
  apply afill_inv in H. cbn in H. destruct H as (z & w1 & HT & HV).
  set (s := eff_style dflt (pre ++ own)) in *.
  rewrite <- app_assoc, run_validators_app in HV. minv HV.
  pose proof (accepted_validators P _ _ _ _ _ _ _ HA V HVa) as ACC.
  apply run_validators_asserting in HVa; [|eapply tok_validators_asserting; eassumption]. subst a.
  rewrite run_validators_app in HV. minv HV.
  pose proof (type_phase_ok P _ _ _ _ _ _ _ _ HT) as KO.
  assert (a = z /\ forall lid vals, k = KLiteral lid vals -> checked s
        (exists l, In l vals /\ type_of P z = type_of P l /\ lit_eq P z l = true)) as [-> HL].
  { unfold lit_validators in HVa. destruct k; cbn in HVa;
      try (injection HVa as <- <-; split; [reflexivity|discriminate]).
    destruct (style_eqb_spec s SHollow) as [E|N]; cbn in HVa.
    - injection HVa as <- <-. split; [reflexivity|]. intros. rewrite E. exact I.
    - minv HVa. injection HVa as <- <-. apply literal_validator_ok in HVaa.
      destruct HVaa as [-> HE]. split; [reflexivity|]. intros l v' E. injection E as <- <-.
      cbn in KO. destruct s; cbn; auto. }
  exists z, w2. cbn. split; [assumption|]. split; [|split; [|split]; assumption].
  intro N. eapply coercers_nonempty; eassumption.
Qed.

Lemma kind_ok_class : forall s t cs v (ts : list token),
  (cs <> [] -> has_coercer ts = true) ->
  kind_ok P s (class_kind P t) cs v ->
  if ty_eqb P t (t_bool P) then class_ok P s t v else class_conforms P s ts t v.
Proof.
  intros s t cs v ts HC H. unfold class_kind in H. unfold class_conforms.
  destruct (ty_eqP P t (t_bool P)) as [->|]; [exact H|].
  destruct (ty_eqP P t (t_none P)) as [->|].
  { cbn in H. destruct s; cbn in *; auto; tauto. }
  destruct (ty_eqP P t (t_ellipsis P)) as [->|].
  { cbn in H. destruct s; cbn in *; auto; tauto. }
  exact H.
Qed.

Lemma kind_ok_nodefault : forall s k cs v, kind_ok P s k cs v -> s <> SDefault.
Proof. intros s k cs v H E. subst. destruct k; cbn in H; auto. Qed.

Lemma origin_class_kind : forall t, origin_of P (class_kind P t) = OTy t.
Proof.
  intros t. unfold class_kind.
  destruct (ty_eqP P t (t_bool P)) as [->|]; [reflexivity|].
  destruct (ty_eqP P t (t_none P)) as [->|]; [reflexivity|].
  destruct (ty_eqP P t (t_ellipsis P)) as [->|]; reflexivity.
Qed.

(** the result of a check still conforms after the container was rebuilt *)
Lemma class_ok_same : forall s t v r,
  type_of P r = type_of P v -> (forall u, isinstance P r u = isinstance P v u) ->
  class_ok P s t v -> class_ok P s t r.
Proof. intros s t v r HT HI H. destruct s; cbn in *; auto; rewrite ?HT, ?HI; assumption. Qed.

Lemma class_ok_tuple : forall s v, s <> SHollow -> class_ok P s (t_tuple P) v ->
  type_of P v = t_tuple P \/ isinstance P v (t_tuple P) = true.
Proof. intros s v N H. destruct s; cbn in *; auto; tauto. Qed.

Lemma class_ok_nodefault : forall s t v, class_ok P s t v -> s <> SDefault.
Proof. intros s t v H E; subst; exact H. Qed.

Lemma class_ok_hollow : forall t v, class_ok P SHollow t v.
Proof. intros; exact I. Qed.

Lemma checked_nd : forall s (c : Prop), s <> SDefault -> (s <> SHollow -> c) -> checked s c.
Proof. intros s c N H. destruct s; cbn; auto; apply H; discriminate. Qed.

(** ** The theorem *)

Section Theorem_.
Variable L : list token -> origin -> obj -> Prop.
Hypothesis L_accepted : forall ts o v, accepted ts o v -> L ts o v.
Hypothesis honest : honest_containers P.


Definition sound_at (h : hint) : Prop :=
  forall own f ops f1 dflt t f',
    gaf P own h = Ok f -> apply_ops P f ops = Ok f1 -> bind_with P dflt t f1 = Ok f' ->
    Forall asserting (hint_tokens h ++ own ++ map snd ops ++ t) ->
    (forall x w y p w', fill P f' x w = (Ok (y, p), w') ->
       conforms_with P L dflt (sub_ops ops) (own_ops ops ++ t) own h y) /\
    (is_hollow f' = true -> forall y, conforms_with P L dflt (sub_ops ops) (own_ops ops ++ t) own h y).

(** what [sound_at] gives for a part of an annotation *)
Lemma sound_part : forall h, sound_at h -> forall f s1 ts u dflt s2,
  gaf P [] h = Ok f -> applys P f ts = Ok s1 -> bind_with P dflt u s1 = Ok s2 ->
  Forall asserting (hint_tokens h) -> Forall asserting (ts ++ u) ->
  (forall x w y w', call P s2 x w = (Ok y, w') -> conforms_with P L dflt no_sub_tokens (ts ++ u) [] h y) /\
  (forall x w y p w', fill P s2 x w = (Ok (y, p), w') -> conforms_with P L dflt no_sub_tokens (ts ++ u) [] h y) /\
  (is_hollow s2 = true -> forall y, conforms_with P L dflt no_sub_tokens (ts ++ u) [] h y).
Proof.
  intros h HS f s1 ts u dflt s2 HG HA HB A1 A2.
  rewrite (bind_with_applys P _ _ _ _ _ HA) in HB.
  destruct (HS [] f [] f dflt (ts ++ u) s2) as [F1 F2]; auto.
  { rewrite Forall_app. split; [assumption|]. cbn. assumption. }
  split; [|split; assumption].
  intros x w y w' HC. apply call_fill in HC. destruct HC as [p HC]. eapply F1. eassumption.
Qed.

(** a container: its own check, then the element validator [extra] *)
Lemma aapplys_abind : forall dflt k own ops t a1 b1 a2,
  aapplys P (mk_afiller k own) (own_ops ops) = Ok a1 -> aapplys P a1 t = Ok b1 -> abind P dflt b1 = Ok a2 ->
  aapplys P (mk_afiller k own) (own_ops ops ++ t) = Ok b1 /\
  a_style a2 = eff_style dflt ((own_ops ops ++ t) ++ own).
Proof.
  intros dflt k own ops t a1 b1 a2 H1 H2 H3.
  assert (HA : aapplys P (mk_afiller k own) (own_ops ops ++ t) = Ok b1).
  { rewrite aapplys_app, H1. exact H2. }
  split; [assumption|].
  destruct (bound_afiller P _ _ _ _ _ _ HA H3) as (cs & vs & _ & _ & -> & _). reflexivity.
Qed.

Lemma add_validator_eq : forall (a : afiller) v,
  add_validator a v = AF (a_kind a) (a_args a) (a_style a) (a_coercers a) (a_validators a ++ [v]) (a_bound a).
Proof. reflexivity. Qed.

Lemma afiller_eta : forall a : afiller,
  a = AF (a_kind a) (a_args a) (a_style a) (a_coercers a) (a_validators a ++ []) (a_bound a).
Proof. intros []; cbn. rewrite app_nil_r. reflexivity. Qed.

Lemma ahollow_style : forall a : afiller, ahollow a = true <-> a_style a = SHollow.
Proof. intros a. unfold ahollow. destruct (style_eqb_spec (a_style a) SHollow); split; congruence. Qed.

Lemma nth_error_Forall : forall {A} (Q : A -> Prop) l n x, Forall Q l -> nth_error l n = Some x -> Q x.
Proof. intros A Q l n x HF E. eapply Forall_forall in HF; [eassumption|]. eapply nth_error_In; eassumption. Qed.

Lemma mapO_nth : forall {A B} (g : A -> outcome B) l l' n a,
  mapO g l = Ok l' -> nth_error l n = Some a -> exists b, nth_error l' n = Some b /\ g a = Ok b.
Proof.
  intros A B g l l' n a H. apply mapO_Forall2 in H. revert n a.
  induction H as [|x y l l' HG HF IH]; intros [|n] a E; cbn in *; try discriminate.
  - injection E as <-. eauto.
  - apply IH; assumption.
Qed.

Lemma mapO_nth' : forall {A B} (g : A -> outcome B) l l' n b,
  mapO g l = Ok l' -> nth_error l' n = Some b -> exists a, nth_error l n = Some a /\ g a = Ok b.
Proof.
  intros A B g l l' n b H. apply mapO_Forall2 in H. revert n b.
  induction H as [|x y l l' HG HF IH]; intros [|n] b E; cbn in *; try discriminate.
  - injection E as <-. eauto.
  - apply IH; assumption.
Qed.

Lemma subs_after_back : forall ops subs subs1 n s1,
  subs_after ops subs subs1 -> nth_error subs1 n = Some s1 ->
  exists s, nth_error subs n = Some s /\ applys P s (sub_ops ops n) = Ok s1.
Proof.
  intros ops subs subs1 n s1 [LL HS] E.
  destruct (nth_error subs n) as [s|] eqn:ES.
  - exists s. split; [reflexivity|]. destruct (HS _ _ ES) as (s1' & E1 & HA). congruence.
  - apply nth_error_None in ES. rewrite <- LL in ES. apply nth_error_None in ES. congruence.
Qed.

Lemma hint_tokens_nth : forall (hs : list hint) n h,
  Forall asserting (flat_map (@hint_tokens obj ty W) hs) -> nth_error hs n = Some h -> Forall asserting (hint_tokens h).
Proof.
  intros hs n h HF E. apply nth_error_In in E. apply Forall_forall. intros t HT.
  eapply Forall_forall in HF; [eassumption|]. apply in_flat_map. eauto.
Qed.



Lemma sound_simple : forall k own ops f1 dflt t f' h (C : obj -> Prop),
  apply_ops P (FAnn (mk_afiller k own)) ops = Ok f1 -> bind_with P dflt t f1 = Ok f' ->
  Forall asserting (hint_tokens h ++ own ++ map snd ops ++ t) ->
  (forall z cs, kind_ok P (eff_style dflt ((own_ops ops ++ t) ++ own)) k cs z ->
     (cs <> [] -> has_coercer ((own_ops ops ++ t) ++ own) = true) ->
     (forall lid vals, k = KLiteral lid vals -> checked (eff_style dflt ((own_ops ops ++ t) ++ own))
        (exists l, In l vals /\ type_of P z = type_of P l /\ lit_eq P z l = true)) ->
     accepted ((own_ops ops ++ t) ++ own) (origin_of P k) z -> C z) ->
  (eff_style dflt ((own_ops ops ++ t) ++ own) = SHollow -> forall z, C z) ->
  (forall x w y p w', fill P f' x w = (Ok (y, p), w') -> C y) /\ (is_hollow f' = true -> forall y, C y).
Proof.
  intros k own ops f1 dflt t f' h C HO HB HA HC HH.
  apply ops_ann in HO. destruct HO as (a1 & -> & HO). cbn in HB. oinv HB. oinv HB. injection HB as <-.
  destruct (aapplys_abind _ _ _ _ _ _ _ _ HO HBa HBa0) as [HAA HST].
  split.
  - intros x w y p w' HF. cbn in HF. rewrite (afiller_eta a0) in HF.
    eapply afill_asserting in HF; [|eassumption|eassumption|eapply asserting_pre; eassumption].
    destruct HF as (z & w1 & KO & CN & HL & ACC & HV). cbn in HV. injection HV as <- <-.
    eapply HC; eassumption.
  - intros HHol y. cbn in HHol. apply ahollow_style in HHol. apply HH. congruence.
Qed.

Ltac split_own H := rewrite !Forall_app in H; destruct H as (?Ah & ?Ao & ?Aops & ?At).

Lemma sound : forall h, sound_at h.
Proof.
  destruct honest as [hon_seq hon_map].
  induction h as [t0| | | |h IH|hs IH|lid vals|base|hs IH|h IH|rk t0 h IH|rk t0 hk hv IHk IHv|t0 hs IH|t0| |h toks IH]
    using hint_ind'; intros own f ops f1 dflt t f' HG HO HB HA.
  - (* HTy *)
    cbn in HG. injection HG as <-. eapply sound_simple; try eassumption.
    + intros z cs KO CN _ ACC. cbn. split; [eapply kind_ok_class; eassumption|].
      rewrite origin_class_kind in ACC. apply checked_nd; [eapply kind_ok_nodefault; eassumption|auto].
    + intros E z. cbn. rewrite E. unfold class_conforms. split; [|exact I].
      destruct (ty_eqb P t0 (t_bool P)); [exact I|]. destruct (ty_eqb P t0 (t_none P)); [exact I|].
      destruct (ty_eqb P t0 (t_ellipsis P)); exact I.
  - (* HNone *)
    cbn in HG. injection HG as <-. eapply sound_simple; try eassumption.
    + intros z cs KO CN _ ACC. apply L_accepted in ACC. cbn in *. destruct (eff_style _ _); cbn in *; auto; tauto.
    + intros E z. cbn. rewrite E. exact I.
  - (* HCallable *)
    cbn in HG. injection HG as <-. eapply sound_simple; try eassumption.
    + intros z cs KO CN _ ACC. apply L_accepted in ACC. cbn in *. destruct (eff_style _ _); cbn in *; auto; tauto.
    + intros E z. cbn. rewrite E. exact I.
  - (* HAny *)
    cbn in HG. injection HG as <-. eapply sound_simple; try eassumption.
    + intros z cs KO CN _ ACC. cbn in *. split; [exact KO|].
      apply checked_nd; [eapply class_ok_nodefault; eassumption|auto].
    + intros E z. cbn. rewrite E. split; exact I.
  - (* HNewType *)
    assert (D : (exists h' ts, h = HAnn h' ts) \/ (forall A (x y : A), match h with HAnn _ _ => x | _ => y end = y)).
    { destruct h; auto. left; eauto. }
    destruct D as [(h' & ts & ->)|D].
    + cbn. split; intros; exact I.
    + assert (HG' : gaf P own h = Ok f) by (rewrite <- HG; cbn; symmetry; apply (D (outcome filler))).
      assert (CE : forall y, conforms_with P L dflt (sub_ops ops) (own_ops ops ++ t) own (HNewType h) y
                   = conforms_with P L dflt (sub_ops ops) (own_ops ops ++ t) own h y).
      { intro y. cbn. apply (D Prop). }
      destruct (IH own f ops f1 dflt t f' HG' HO HB HA) as [F1 F2].
      split; [intros; rewrite CE; eapply F1; eassumption | intros; rewrite CE; apply F2; assumption].
  - (* HUnion *)
    cbn in HG. oinv HG. injection HG as <-. apply ops_union in HO. destruct HO as (subs1 & -> & HS).
    cbn in HB. oinv HB. injection HB as <-. cbn [app] in HBa.
    split_own HA.
    assert (MEM : forall n s2, nth_error a0 n = Some s2 -> exists h', nth_error hs n = Some h' /\
      (forall x w y p w', fill P s2 x w = (Ok (y, p), w') ->
         conforms_with P L dflt no_sub_tokens (sub_ops ops n ++ own ++ (own_ops ops ++ t)) [] h' y) /\
      (is_hollow s2 = true -> forall y,
         conforms_with P L dflt no_sub_tokens (sub_ops ops n ++ own ++ (own_ops ops ++ t)) [] h' y)).
    { intros n s2 E2. destruct (mapO_nth' _ _ _ _ _ HBa E2) as (s1 & E1 & B1).
      destruct (subs_after_back _ _ _ _ _ HS E1) as (s & E & A).
      destruct (mapO_nth' _ _ _ _ _ HGa E) as (h' & Eh & G).
      exists h'. split; [assumption|].
      destruct (sound_part h' (nth_error_Forall _ _ _ _ IH Eh) _ _ _ _ _ _ G A B1) as (_ & F1 & F2).
      - eapply hint_tokens_nth; eassumption.
      - rewrite Forall_app. split; [apply asserting_sub; assumption|].
        rewrite Forall_app. split; [assumption|].
        pose proof (asserting_pre ops t own HOther) as HP. rewrite !Forall_app in HP.
        rewrite Forall_app. apply HP. repeat split; auto. constructor.
      - split; assumption. }
    assert (INJ : forall y n h', nth_error hs n = Some h' ->
       conforms_with P L dflt no_sub_tokens (sub_ops ops n ++ own ++ (own_ops ops ++ t)) [] h' y ->
       conforms_with P L dflt (sub_ops ops) (own_ops ops ++ t) own (HUnion hs) y).
    { intros y n h' E HC. cbn. destruct hs as [|h0 hr]; [exact I|]. apply any_i_ex. exists n, h'. cbn. auto. }
    assert (HOL : forallb is_hollow a0 = true -> forall y, conforms_with P L dflt (sub_ops ops) (own_ops ops ++ t) own (HUnion hs) y).
    { intros HH y. destruct a0 as [|s2 r].
      - apply mapO_length in HBa. apply mapO_length in HGa. destruct HS as [LL _].
        destruct hs; [exact I|]. cbn in *. congruence.
      - destruct (MEM 0 s2 eq_refl) as (h' & E & _ & F2). eapply INJ; [eassumption|]. apply F2.
        cbn in HH. apply andb_prop in HH. tauto. }
    split; [|exact HOL].
    intros x w y p w' HF. cbn in HF. destruct (forallb is_hollow a0) eqn:HH; [apply HOL; reflexivity|].
    minv HF. destruct a1 as [bs key]. cbn in HF. apply union_finish_in in HF. destruct HF as (HIn & _ & _).
    destruct (union_loop_in _ _ _ _ _ _ _ _ HFa y HIn) as [[]|(n & g & q & u & u' & Hn & Hg)].
    rewrite nth_error_map in Hn. destruct (nth_error a0 n) as [s2|] eqn:E2; [|discriminate].
    cbn in Hn. injection Hn as <-.
    destruct (MEM n s2 E2) as (h' & Eh & F1 & _). eapply INJ; [eassumption|]. eapply F1; eassumption.
  - (* HLiteral *)
    cbn in HG. injection HG as <-. eapply sound_simple; try eassumption.
    + intros z cs KO CN HL ACC. specialize (HL _ _ eq_refl). apply L_accepted in ACC.
      cbn in *. destruct (eff_style _ _); cbn in *; auto.
    + intros E z. cbn. rewrite E. exact I.
  - (* HType *)
    cbn in HG. injection HG as <-. apply ops_type in HO. destruct HO as (a1 & -> & HO).
    cbn in HB. oinv HB. oinv HB. injection HB as <-.
    destruct (aapplys_abind _ _ _ _ _ _ _ _ HO HBa HBa0) as [HAA HST].
    pose proof (asserting_pre ops t own (HType base) HA) as AP.
    split.
    + intros x w y p w' HF. cbn in HF. destruct (ahollow a0) eqn:HH.
      * apply ahollow_style in HH. cbn. rewrite <- HST, HH. cbn. auto.
      * rewrite add_validator_eq in HF.
        eapply afill_asserting in HF; [|eassumption|eassumption|assumption].
        destruct HF as (z & w1 & KO & _ & _ & ACC & HV). cbn in HV. minv HV. injection HV as <- <-.
        unfold type_validator in HVa. destruct (issubclass P z base) as [[|]|] eqn:IS; try discriminate.
        injection HVa as <- <-. cbn in *. split; [assumption|].
        apply checked_nd; [eapply class_ok_nodefault; eassumption|auto].
    + intros HH y. cbn in HH. assert (HH' : ahollow a0 = true).
      { destruct (ahollow a0) eqn:E; [reflexivity|]. unfold ahollow in *; cbn in HH; congruence. }
      apply ahollow_style in HH'. cbn. rewrite <- HST, HH'. cbn. auto.
  - (* HTupleN *)
    cbn in HG. oinv HG. injection HG as <-. apply ops_tuplen in HO. destruct HO as (a1 & subs1 & -> & HO & HS).
    cbn in HB. oinv HB. oinv HB. oinv HB.
    destruct (aapplys_abind _ _ _ _ _ _ _ _ HO HBa HBa0) as [HAA HST].
    pose proof (asserting_pre ops t own (HTupleN hs) HA) as AP. split_own HA.
    assert (LEN : List.length subs1 = List.length hs /\ List.length a3 = List.length hs).
    { apply mapO_length in HBa1. apply mapO_length in HGa. destruct HS as [LL _]. split; congruence. }
    assert (MEM : forall n s2, nth_error a3 n = Some s2 -> exists h', nth_error hs n = Some h' /\
      (forall x w y w', call P s2 x w = (Ok y, w') -> conforms_with P L dflt no_sub_tokens (sub_ops ops n) [] h' y) /\
      (is_hollow s2 = true -> forall y, conforms_with P L dflt no_sub_tokens (sub_ops ops n) [] h' y)).
    { intros n s2 E2. destruct (mapO_nth' _ _ _ _ _ HBa1 E2) as (s1 & E1 & B1).
      destruct (subs_after_back _ _ _ _ _ HS E1) as (s & E & A).
      destruct (mapO_nth' _ _ _ _ _ HGa E) as (h' & Eh & G).
      exists h'. split; [assumption|].
      destruct (sound_part h' (nth_error_Forall _ _ _ _ IH Eh) _ _ _ _ _ _ G A B1) as (F0 & _ & F2).
      - eapply hint_tokens_nth; eassumption.
      - rewrite app_nil_r. apply asserting_sub; assumption.
      - rewrite app_nil_r in *. split; assumption. }
    assert (MEMh : forall n h', nth_error hs n = Some h' -> exists s2, nth_error a3 n = Some s2).
    { intros n h' E. destruct (nth_error a3 n) as [s2|] eqn:E2; [eauto|].
      apply nth_error_None in E2. destruct LEN as [_ LEN]. rewrite LEN in E2. apply nth_error_None in E2. congruence. }
    assert (HOLL : eff_style dflt ((own_ops ops ++ t) ++ own) = SHollow ->
       forall y, conforms_with P L dflt (sub_ops ops) (own_ops ops ++ t) own (HTupleN hs) y).
    { intros E y. cbn. rewrite E. cbn. auto. }
    set (C := fun n e => forall h', nth_error hs n = Some h' -> conforms_with P L dflt no_sub_tokens (sub_ops ops n) [] h' e).
    assert (BUILD : forall s y l, s = eff_style dflt ((own_ops ops ++ t) ++ own) ->
        class_ok P s (t_tuple P) y -> elems P y = Some l -> List.length l = List.length hs ->
        (forall n e, nth_error l n = Some e -> C n e) ->
        conforms_with P L dflt (sub_ops ops) (own_ops ops ++ t) own (HTupleN hs) y).
    { intros s y l -> HC HE HL HN. cbn. split; [assumption|].
      apply checked_nd; [eapply class_ok_nodefault; eassumption|]. intros _. exists l. split; [assumption|].
      apply all2_i_nth. split; [congruence|]. intros n h' e E1 E2. cbn. eapply HN; eassumption. }
    destruct (forallb is_hollow a3) eqn:HH3.
    + (* all elements hollow *)
      injection HB as <-.
      assert (HC : forall n e, C n e).
      { intros n e h' E. destruct (MEMh _ _ E) as (s2 & E2). destruct (MEM _ _ E2) as (h'' & E'' & _ & F2).
        rewrite E in E''. injection E'' as <-. apply F2. eapply forallb_forall in HH3; [eassumption|].
        eapply nth_error_In; eassumption. }
      split.
      * intros x w y p w' HF. cbn in HF. destruct (ahollow a2) eqn:HH.
        -- apply HOLL. apply ahollow_style in HH. congruence.
        -- rewrite add_validator_eq in HF.
           eapply afill_asserting in HF; [|eassumption|eassumption|assumption].
           destruct HF as (z & w1 & KO & _ & _ & ACC & HV). cbn in HV. minv HV. injection HV as <- <-.
           unfold len_validator in HVa. destruct (elems P z) as [l|] eqn:EL; [|discriminate].
           destruct (Nat.eqb_spec (List.length l) (List.length subs1)) as [EQ|]; [|discriminate].
           injection HVa as <- <-. eapply BUILD; [reflexivity|eassumption|eassumption|destruct LEN; congruence|auto].
      * intros HH y. apply HOLL. cbn in HH. rewrite <- HST. apply ahollow_style.
        destruct (ahollow a2) eqn:E; [reflexivity|]. unfold ahollow in *; cbn in HH; congruence.
    + destruct (ahollow (if ahollow a2 then a2 else add_validator a2 (len_validator P (List.length subs1)))) eqn:HH;
        [discriminate|].
      injection HB as <-.
      destruct (ahollow a2) eqn:HH2; [congruence|].
      split.
      * intros x w y p w' HF. cbn [fill] in HF. unfold add_validator in HF. cbn in HF. rewrite <- app_assoc in HF.
        eapply afill_asserting in HF; [|eassumption|eassumption|assumption].
        destruct HF as (z & w1 & KO & _ & _ & ACC & HV). cbn in HV. minv HV. minv HV. injection HV as <- <-.
        unfold len_validator in HVa. destruct (elems P z) as [l|] eqn:EL; [|discriminate].
        destruct (Nat.eqb_spec (List.length l) (List.length subs1)) as [EQ|]; [|discriminate].
        injection HVa as <- <-. cbn in HVa0. unfold tuple_validator in HVa0. rewrite EL in HVa0.
        apply tuple_rest_ok with (Q := C) in HVa0.
        -- destruct HVa0 as [[-> HN]|(es & w5 & HR & HL & HN)].
           ++ eapply BUILD; [reflexivity|eassumption|eassumption|destruct LEN; congruence|exact HN].
           ++ pose proof (hon_seq _ _ _ _ _ _ HR) as (T1 & T2 & _ & T4).
              eapply BUILD; [reflexivity| |apply T4|cbn in HL; destruct LEN; congruence|exact HN].
              ** eapply class_ok_same; eassumption.
              ** eapply class_ok_tuple; [|eassumption]. intro E. rewrite <- HST in E.
                 apply ahollow_style in E. congruence.
        -- intros n g e w5 e' w5' E HE. cbn. rewrite nth_error_map in E.
           destruct (nth_error a3 n) as [s2|] eqn:E2; [|discriminate]. cbn in E. injection E as <-.
           intros h' Eh. destruct (MEM _ _ E2) as (h'' & E'' & F0 & _). rewrite Eh in E''. injection E'' as <-.
           eapply F0; eassumption.
        -- rewrite map_length. destruct LEN; congruence.
        -- intros [|n] e E; discriminate.
      * intros HHt y. cbn in HHt. unfold ahollow in HHt, HH2. cbn in HHt. congruence.
  - (* HTupleV *)
    cbn in HG. oinv HG. injection HG as <-. apply ops_tuplev in HO. destruct HO as (a1 & sub1 & -> & HO & HS).
    cbn in HB. oinv HB. oinv HB. oinv HB.
    destruct (aapplys_abind _ _ _ _ _ _ _ _ HO HBa HBa0) as [HAA HST].
    pose proof (asserting_pre ops t own (HTupleV h) HA) as AP. split_own HA.
    destruct (sound_part h IH _ _ _ _ _ _ HGa HS HBa1) as (F0 & _ & F2);
      [assumption|rewrite app_nil_r; apply asserting_sub; assumption|]. rewrite app_nil_r in F0, F2.
    assert (HOLL : eff_style dflt ((own_ops ops ++ t) ++ own) = SHollow ->
       forall y, conforms_with P L dflt (sub_ops ops) (own_ops ops ++ t) own (HTupleV h) y).
    { intros E y. cbn. rewrite E. cbn. auto. }
    destruct (is_hollow a3) eqn:HH3.
    + injection HB as <-. split.
      * intros x w y p w' HF. cbn in HF. rewrite (afiller_eta a2) in HF.
        eapply afill_asserting in HF; [|eassumption|eassumption|assumption].
        destruct HF as (z & w1 & KO & _ & _ & ACC & HV). cbn in HV. injection HV as <- <-.
        cbn in KO. cbn. split; [assumption|].
        apply checked_nd; [eapply class_ok_nodefault; eassumption|]. intros _ l e _ _. apply F2. reflexivity.
      * intros HH y. cbn in HH. apply HOLL. rewrite <- HST. apply ahollow_style. assumption.
    + destruct (ahollow a2) eqn:HH2; [discriminate|]. injection HB as <-. split.
      * intros x w y p w' HF. cbn [fill] in HF. rewrite add_validator_eq in HF.
        eapply afill_asserting in HF; [|eassumption|eassumption|assumption].
        destruct HF as (z & w1 & KO & _ & _ & ACC & HV). cbn in HV. minv HV. injection HV as <- <-.
        unfold iter_validator in HVa. destruct (elems P z) as [l|] eqn:EL; [|discriminate].
        apply fill_rest_ok with (Q := conforms_with P L dflt no_sub_tokens (sub_ops ops 0) [] h) in HVa;
          [|intros; eapply F0; eassumption|constructor].
        cbn in KO. destruct HVa as [[-> HN]|(es & w5 & HR & HN)].
        -- cbn. split; [assumption|]. apply checked_nd; [eapply class_ok_nodefault; eassumption|].
           intros _ l' e E HI. rewrite EL in E. injection E as <-. eapply Forall_forall in HN; eassumption.
        -- pose proof (hon_seq _ _ _ _ _ _ HR) as (T1 & T2 & T3 & _).
           match goal with |- conforms_with _ _ _ _ _ _ _ ?r =>
           assert (CO : class_ok P (eff_style dflt ((own_ops ops ++ t) ++ own)) (t_tuple P) r) by (eapply class_ok_same; eassumption) end.
           cbn. split; [assumption|]. apply checked_nd; [eapply class_ok_nodefault; eassumption|].
           intros _ l' e E HI. apply T3 in E. apply E in HI. eapply Forall_forall in HN; eassumption.
      * intros HHt y. cbn in HHt. unfold ahollow in HHt, HH2. cbn in HHt. congruence.
  - (* HIter *)
    cbn in HG. oinv HG. injection HG as <-. apply ops_iter in HO. destruct HO as (a1 & sub1 & -> & HO & HS).
    cbn in HB. oinv HB. oinv HB. oinv HB.
    destruct (aapplys_abind _ _ _ _ _ _ _ _ HO HBa HBa0) as [HAA HST].
    pose proof (asserting_pre ops t own (HIter rk t0 h) HA) as AP. split_own HA.
    destruct (sound_part h IH _ _ _ _ _ _ HGa HS HBa1) as (F0 & _ & F2);
      [assumption|rewrite app_nil_r; apply asserting_sub; assumption|]. rewrite app_nil_r in F0, F2.
    assert (HOLL : eff_style dflt ((own_ops ops ++ t) ++ own) = SHollow ->
       forall y, conforms_with P L dflt (sub_ops ops) (own_ops ops ++ t) own (HIter rk t0 h) y).
    { intros E y. cbn. rewrite E. cbn. auto. }
    destruct (is_hollow a3) eqn:HH3.
    + injection HB as <-. split.
      * intros x w y p w' HF. cbn in HF. rewrite (afiller_eta a2) in HF.
        eapply afill_asserting in HF; [|eassumption|eassumption|assumption].
        destruct HF as (z & w1 & KO & _ & _ & ACC & HV). cbn in HV. injection HV as <- <-.
        cbn in KO. cbn. split; [assumption|].
        apply checked_nd; [eapply class_ok_nodefault; eassumption|]. intros _ l e _ _. apply F2. reflexivity.
      * intros HH y. cbn in HH. apply HOLL. rewrite <- HST. apply ahollow_style. assumption.
    + destruct (ahollow a2) eqn:HH2; [discriminate|]. injection HB as <-. split.
      * intros x w y p w' HF. cbn [fill] in HF. rewrite add_validator_eq in HF.
        eapply afill_asserting in HF; [|eassumption|eassumption|assumption].
        destruct HF as (z & w1 & KO & _ & _ & ACC & HV). cbn in HV. minv HV. injection HV as <- <-.
        unfold iter_validator in HVa. destruct (elems P z) as [l|] eqn:EL; [|discriminate].
        apply fill_rest_ok with (Q := conforms_with P L dflt no_sub_tokens (sub_ops ops 0) [] h) in HVa;
          [|intros; eapply F0; eassumption|constructor].
        cbn in KO. destruct HVa as [[-> HN]|(es & w5 & HR & HN)].
        -- cbn. split; [assumption|]. apply checked_nd; [eapply class_ok_nodefault; eassumption|].
           intros _ l' e E HI. rewrite EL in E. injection E as <-. eapply Forall_forall in HN; eassumption.
        -- pose proof (hon_seq _ _ _ _ _ _ HR) as (T1 & T2 & T3 & _).
           match goal with |- conforms_with _ _ _ _ _ _ _ ?r =>
           assert (CO : class_ok P (eff_style dflt ((own_ops ops ++ t) ++ own)) t0 r) by (eapply class_ok_same; eassumption) end.
           cbn. split; [assumption|]. apply checked_nd; [eapply class_ok_nodefault; eassumption|].
           intros _ l' e E HI. apply T3 in E. apply E in HI. eapply Forall_forall in HN; eassumption.
      * intros HHt y. cbn in HHt. unfold ahollow in HHt, HH2. cbn in HHt. congruence.
  - (* HMap *)
    cbn in HG. oinv HG. oinv HG. injection HG as <-. apply ops_map in HO.
    destruct HO as (a1 & fk1 & fv1 & -> & HO & HSk & HSv).
    cbn in HB. oinv HB. oinv HB. oinv HB. oinv HB.
    destruct (aapplys_abind _ _ _ _ _ _ _ _ HO HBa HBa0) as [HAA HST].
    pose proof (asserting_pre ops t own (HMap rk t0 hk hv) HA) as AP. split_own HA.
    cbn in Ah. rewrite Forall_app in Ah. destruct Ah as [Ahk Ahv].
    destruct (sound_part hk IHk _ _ _ _ _ _ HGa HSk HBa1) as (K0 & _ & K2);
      [assumption|rewrite app_nil_r; apply asserting_sub; assumption|]. rewrite app_nil_r in K0, K2.
    destruct (sound_part hv IHv _ _ _ _ _ _ HGa0 HSv HBa2) as (V0 & _ & V2);
      [assumption|rewrite app_nil_r; apply asserting_sub; assumption|]. rewrite app_nil_r in V0, V2.
    assert (HOLL : eff_style dflt ((own_ops ops ++ t) ++ own) = SHollow ->
       forall y, conforms_with P L dflt (sub_ops ops) (own_ops ops ++ t) own (HMap rk t0 hk hv) y).
    { intros E y. cbn. rewrite E. cbn. auto. }
    destruct (is_hollow a4 && is_hollow a5) eqn:HH3.
    + apply andb_prop in HH3. destruct HH3 as [HHk HHv].
      injection HB as <-. split.
      * intros x w y p w' HF. cbn in HF. rewrite (afiller_eta a3) in HF.
        eapply afill_asserting in HF; [|eassumption|eassumption|assumption].
        destruct HF as (z & w1 & KO & _ & _ & ACC & HV). cbn in HV. injection HV as <- <-.
        cbn in KO. cbn. split; [assumption|].
        apply checked_nd; [eapply class_ok_nodefault; eassumption|]. intros _ l k e _ _.
        split; [apply K2; assumption | apply V2; assumption].
      * intros HH y. cbn in HH. apply HOLL. rewrite <- HST. apply ahollow_style. assumption.
    + destruct (ahollow a3) eqn:HH2; [discriminate|]. injection HB as <-. split.
      * intros x w y p w' HF. cbn [fill] in HF. rewrite add_validator_eq in HF.
        eapply afill_asserting in HF; [|eassumption|eassumption|assumption].
        destruct HF as (z & w1 & KO & _ & _ & ACC & HV). cbn in HV. minv HV. injection HV as <- <-.
        apply map_validator_ok with (Qk := conforms_with P L dflt no_sub_tokens (sub_ops ops 0) [] hk)
                                    (Qv := conforms_with P L dflt no_sub_tokens (sub_ops ops 1) [] hv) in HVa;
          [|intros; eapply K0; eassumption|intros; eapply V0; eassumption].
        cbn in KO. destruct HVa as (l & EL & [[-> HN]|(es & w5 & HR & HN)]).
        -- cbn. split; [assumption|]. apply checked_nd; [eapply class_ok_nodefault; eassumption|].
           intros _ l' k e E HI. rewrite EL in E. injection E as <-.
           eapply Forall_forall in HN; [|eassumption]. exact HN.
        -- pose proof (hon_map _ _ _ _ _ _ HR) as (T1 & T2 & T3).
           match goal with |- conforms_with _ _ _ _ _ _ _ ?r =>
           assert (CO : class_ok P (eff_style dflt ((own_ops ops ++ t) ++ own)) t0 r) by (eapply class_ok_same; eassumption) end.
           cbn. split; [assumption|]. apply checked_nd; [eapply class_ok_nodefault; eassumption|].
           intros _ l' k e E HI. apply T3 in E. destruct E as [Ek Ev]. split.
           ++ assert (IK : In k (map fst es)) by (apply Ek; apply (in_map fst) in HI; exact HI).
              apply in_map_iff in IK. destruct IK as (kv & <- & IK).
              eapply Forall_forall in HN; [|eassumption]. apply HN.
           ++ assert (IV : In e (map snd es)) by (apply Ev; apply (in_map snd) in HI; exact HI).
              apply in_map_iff in IV. destruct IV as (kv & <- & IV).
              eapply Forall_forall in HN; [|eassumption]. apply HN.
      * intros HHt y. cbn in HHt. unfold ahollow in HHt, HH2. cbn in HHt. congruence.
  - (* HGenN *)
    cbn in HG. oinv HG. injection HG as <-. apply ops_genn in HO. destruct HO as (a1 & -> & HO).
    cbn in HB. oinv HB. oinv HB. oinv HB. injection HB as <-.
    destruct (aapplys_abind _ _ _ _ _ _ _ _ HO HBa HBa0) as [HAA HST].
    pose proof (asserting_pre ops t own (HGenN t0 hs) HA) as AP.
    split.
    + intros x w y p w' HF. cbn in HF. rewrite (afiller_eta a2) in HF.
      eapply afill_asserting in HF; [|eassumption|eassumption|assumption].
      destruct HF as (z & w1 & KO & _ & _ & ACC & HV). cbn in HV. injection HV as <- <-. cbn in *. split; [exact KO|].
      apply checked_nd; [eapply class_ok_nodefault; eassumption|auto].
    + intros HH y. cbn in HH. apply ahollow_style in HH. cbn. rewrite <- HST, HH. split; exact I.
  - (* HBare *)
    cbn in HG. injection HG as <-. eapply sound_simple; try eassumption.
    + intros z cs KO CN _ ACC. cbn. split; [eapply kind_ok_class; eassumption|].
      rewrite origin_class_kind in ACC. apply checked_nd; [eapply kind_ok_nodefault; eassumption|auto].
    + intros E z. cbn. rewrite E. unfold class_conforms. split; [|exact I].
      destruct (ty_eqb P t0 (t_bool P)); [exact I|]. destruct (ty_eqb P t0 (t_none P)); [exact I|].
      destruct (ty_eqb P t0 (t_ellipsis P)); exact I.
  - (* HOther *)
    split; intros; exact I.
  - (* HAnn *)
    cbn in HG. cbn [conforms]. apply (IH (toks ++ own) f ops f1 dflt t f'); try assumption.
    cbn in HA. rewrite !Forall_app in *. tauto.
Qed.
End Theorem_.
End Sound.
