(** Lax_main.v -- proofs of the properties stated in Props_Lax.v: the three type checking styles compared (Filler.fill) *)

From Verif Require Import Base Py Select Filler Spec_Filler Classes Spec_Classes Runtime Record Spec_Record Spec_Settle Spec_Wider Spec_Lax Demo DemoRt DemoCls.
From Verif Require Record_proofs Dict_proofs Classes_proofs Filler_proofs Filler_sound Filler_inv Filler_shape Filler_eqs Filler_leaf Filler_kind Filler_decl Filler_main Props_Filler Settle_main Wider_main.
Open Scope string_scope.
Open Scope list_scope.

Import Filler_proofs Filler_sound Filler_shape Filler_eqs Filler_leaf Filler_kind Filler_decl Settle_main Wider_main.
Section Lemmas.
Context {obj ty W : Type} (P : Py obj ty W).
Notation token := (@token obj ty W).
Notation hint := (@hint obj ty W).
Notation filler := (@filler obj ty W).
Notation callback := (@callback obj W).
Notation akind := (@akind obj ty).

Lemma fewer_refl : forall l : list token, fewer_tests l l.
Proof. induction l; constructor; assumption. Qed.

(** what a class-like annotation becomes *)
Definition simple_make (d : style) (h : hint) (ts : list token) (f : filler) (k : akind) (inner : style -> list callback) : Prop :=
  exists toks cs vs b, tok_coercers P k ts = Ok cs /\ tok_validators P k ts = Ok vs /\
  forall x, fill P f x = afill P (AF k toks (eff_style d ts) cs (vs ++ inner (eff_style d ts)) b) x.

Lemma leaf_simple : forall h k d ts f, leaf_kind P h = Some k -> make_filler P d (HAnn h ts) [] = Ok f ->
  simple_make d h ts f k (lit_validators P k).
Proof.
  intros h k d ts f HK HM. destruct (leaf_make P _ _ _ _ _ _ HK HM) as (cs & vs & C & V & -> & _).
  cbn [own_ops flat_map app] in *. exists ts, cs, vs, true. split; [exact C|]. split; [exact V|]. reflexivity.
Qed.

Definition type_inner (base : ty) (s : style) : list callback := if style_eqb s SHollow then [] else [type_validator P base].

Lemma type_simple : forall base d ts f, make_filler P d (HAnn (HType base) ts) [] = Ok f ->
  simple_make d (HType base) ts f (KSimple (t_type P)) (type_inner base).
Proof.
  intros base d ts f HM. unfold make_filler, get_filler, bind_filler in HM. cbn in HM. rewrite app_nil_r in HM. oinv HM.
  destruct (bound_afiller P d [] (KSimple (t_type P)) ts _ _ eq_refl HMa) as (cs & vs & C & V & -> & _). cbn [app] in *.
  injection HM as <-. unfold ahollow, type_inner. cbn [a_style]. exists ts, cs, vs, true. split; [exact C|]. split; [exact V|].
  intro x. destruct (style_eqb (eff_style d ts) SHollow); cbn; rewrite ?app_nil_r; reflexivity.
Qed.

Lemma gen_simple : forall t hs d ts f, make_filler P d (HAnn (HGenN t hs) ts) [] = Ok f ->
  simple_make d (HGenN t hs) ts f (KSimple t) (fun _ => []).
Proof.
  intros t hs d ts f HM. unfold make_filler, get_filler, bind_filler in HM. cbn in HM. rewrite app_nil_r in HM. oinv HM. oinv HMa. injection HMa as <-.
  cbn in HM. oinv HM. oinv HM. injection HM as <-.
  destruct (bound_afiller P d [] (KSimple t) ts _ _ eq_refl HMa) as (cs & vs & C & V & -> & _). cbn [app] in *.
  exists ts, cs, vs, true. split; [exact C|]. split; [exact V|]. intro x. cbn. reflexivity.
Qed.

(** ** From strict to instances of subclasses *)

Lemma eff_either : forall ts : list token, eff_style SCheck ts = eff_style SStrict ts \/ eff_style SCheck ts = SCheck /\ eff_style SStrict ts = SStrict.
Proof. intro ts. unfold eff_style. destruct (last_style ts); auto. Qed.

Lemma strict_phase : forall k x w y w', type_phase P k SStrict [] x w = (Ok y, w') -> type_phase P k SCheck [] x w = (Ok y, w').
Proof. intros k x w y w'. unfold type_phase. destruct (type_check P k x w); cbn; intro H; try discriminate H; exact H. Qed.

Lemma simple_lax : forall k inner h ts f g, simple_make SStrict h ts f k inner -> simple_make SCheck h ts g k inner ->
  (inner SStrict = inner SCheck) -> has_coercer ts = false -> extends (call P f) (call P g).
Proof.
  intros k inner h ts f g (toks & cs & vs & b & C & V & E) (toks' & cs' & vs' & b' & C' & V' & E') HI HN.
  rewrite C in C'. injection C' as <-. rewrite V in V'. injection V' as <-. rewrite (no_coercers P _ _ _ C HN) in *.
  apply fill_call. intros x w y w'. rewrite E, E'. unfold afill. cbn [a_kind a_style a_coercers a_validators]. unfold bind.
  destruct (eff_either ts) as [-> | [-> ->]]; [auto|]. rewrite <- HI.
  destruct (type_phase P k SStrict [] x w) as [[z|e] w1] eqn:ET; [|discriminate]. rewrite (strict_phase _ _ _ _ _ ET). auto.
Qed.

Lemma class_lax : forall t ts f g, plain_class P t -> has_coercer ts = false ->
  make_filler P SStrict (HAnn (HTy t) ts) [] = Ok f -> make_filler P SCheck (HAnn (HTy t) ts) [] = Ok g -> extends (call P f) (call P g).
Proof.
  intros t ts f g HP HN HF HG. eapply simple_lax; [eapply leaf_simple; [apply class_leaf; exact HP|exact HF]|eapply leaf_simple; [apply class_leaf; exact HP|exact HG]|reflexivity|exact HN].
Qed.

Lemma hollow_lax : forall (h : hint) own, hollow_hint SCheck no_sub_tokens [] own h = hollow_hint SStrict no_sub_tokens [] own h.
Proof.
  assert (S : forall ts : list token, style_eqb (eff_style SCheck ts) SHollow = style_eqb (eff_style SStrict ts) SHollow).
  { intro ts. destruct (eff_either ts) as [-> | [-> ->]]; reflexivity. }
  assert (G : forall (h : hint) pre own, hollow_hint SCheck no_sub_tokens pre own h = hollow_hint SStrict no_sub_tokens pre own h).
  { induction h as [| | | |h IH|hs IH| | |hs IH|h IH|rk t h IH|rk t hk hv IH1 IH2|t hs IH| | |h toks IH] using hint_ind'; intros pre own; cbn; try apply S; try reflexivity.
    - destruct h; try apply IH. reflexivity.
    - generalize 0. induction IH as [|h hs HH _ IH2]; intro i; [reflexivity|]. cbn [all_i]. rewrite HH, IH2. reflexivity.
    - apply IH. }
  intros h own. apply G.
Qed.

Lemma free_app : forall (ts us : list token), has_coercer (ts ++ us) = false <-> has_coercer ts = false /\ has_coercer us = false.
Proof. intros ts us. unfold has_coercer. rewrite existsb_app. destruct (existsb is_coercion ts), (existsb is_coercion us); cbn; intuition congruence. Qed.

Lemma free_flat : forall (hs : list hint) h, has_coercer (flat_map hint_tokens hs) = false -> In h hs -> has_coercer (hint_tokens h) = false.
Proof.
  induction hs as [|a r IH]; intros h H I; [destruct I|]. cbn in H. apply free_app in H. destruct H as [H1 H2]. destruct I as [<-|I]; [assumption|auto].
Qed.

Lemma bare_ann : forall d (h : hint), make_filler P d (HAnn h []) [] = make_filler P d h [].
Proof. reflexivity. Qed.

Lemma lax_calls : forall (h : hint) own f g, unionless P h -> has_coercer (hint_tokens h) = false -> has_coercer own = false ->
  make_filler P SStrict (HAnn h own) [] = Ok f -> make_filler P SCheck (HAnn h own) [] = Ok g -> extends (call P f) (call P g).
Proof.
  induction h as [t| | | |h IH|hs IH|l vs|base|hs IH|h IH|rk t h IH|rk t hk hv IH1 IH2|t hs IH|t| |h toks IH] using hint_ind'; intros own f g HU HN HO HF HG.
  1,2,3,4,7,14: eapply simple_lax; [eapply leaf_simple; [|exact HF]; reflexivity|eapply leaf_simple; [|exact HG]; reflexivity| |exact HO];
    cbn; try reflexivity.
  all: try (unfold class_kind; repeat match goal with |- context [if ?b then _ else _] => destruct b end; reflexivity).
  - (* NewType *)
    assert (E : forall d f, make_filler P d (HAnn (HNewType h) own) [] = Ok f -> annotated h = false -> make_filler P d (HAnn h own) [] = Ok f).
    { intros d f0 H HA. rewrite <- H. unfold make_filler, get_filler. cbn. destruct h; try reflexivity. discriminate. }
    destruct (annotated h) eqn:EA.
    + destruct h; try discriminate. unfold make_filler, get_filler, bind_filler in HF. cbn in HF. rewrite app_nil_r in HF. destruct own; cbn in HF; discriminate.
    + apply (IH own); auto.
  - destruct HU.
  - eapply simple_lax; [apply type_simple; exact HF|apply type_simple; exact HG|reflexivity|exact HO].
  - (* TupleN *)
    destruct HU as [HP HU]. apply all_p_Forall in HU.
    destruct (tuplen_eq P _ _ _ _ _ HP HF) as (f0 & fs & M0 & L & M1 & E). destruct (tuplen_eq P _ _ _ _ _ HP HG) as (g0 & gs & N0 & L' & N1 & E').
    intros x w y w'. rewrite E, E'.
    change (fun n h => hollow_hint SStrict no_sub_tokens (sub_ops [] n) [] h) with (fun (_ : nat) h => hollow_hint SStrict (@no_sub_tokens obj ty W) [] [] h).
    change (fun n h => hollow_hint SCheck no_sub_tokens (sub_ops [] n) [] h) with (fun (_ : nat) h => hollow_hint SCheck (@no_sub_tokens obj ty W) [] [] h).
    cbn [own_ops flat_map app] in *.
    apply then_wider; [eapply class_lax; [exact HP|exact HO|exact M0|exact N0]|].
    replace (all_i (fun (_ : nat) h => hollow_hint SCheck (@no_sub_tokens obj ty W) [] [] h) 0 hs) with (all_i (fun (_ : nat) h => hollow_hint SStrict (@no_sub_tokens obj ty W) [] [] h) 0 hs).
    2: { clear. generalize 0. induction hs as [|h r IHr]; intro i; [reflexivity|]. cbn [all_i]. rewrite hollow_lax, IHr. reflexivity. }
    destruct (all_i _ 0 hs).
    + replace (style_eqb (eff_style SCheck own) SHollow) with (style_eqb (eff_style SStrict own) SHollow); [apply extends_refl|].
      destruct (eff_either own) as [-> | [-> ->]]; reflexivity.
    + apply positions_wider. clear E E' HF HG M0 N0 x w y w'. cbn [hint_tokens] in HN. rewrite Forall_forall in IH, HU.
      assert (Q : forall h, In h hs -> forall f g, make_filler P SStrict h [] = Ok f -> make_filler P SCheck h [] = Ok g -> extends (call P f) (call P g)).
      { intros h I f1 g1 A B. apply (IH h I [] f1 g1); auto. eapply free_flat; eauto. }
      clear IH HU HN. revert fs gs L L' M1 N1. induction hs as [|h r IHr]; intros fs gs L L' M1 N1; (destruct fs as [|f1 fs]; [|]; destruct gs as [|g1 gs]; try discriminate).
      * constructor.
      * destruct (M1 0 h eq_refl) as (f2 & A & B). destruct (N1 0 h eq_refl) as (g2 & A' & B'). cbn in A, A'. injection A as <-. injection A' as <-.
        cbn. constructor; [apply (Q h); [left; reflexivity|exact B|exact B']|]. apply IHr.
        -- intros h0 I. apply Q. right. assumption.
        -- cbn in L. lia.
        -- cbn in L'. lia.
        -- intros n h0 EN. exact (M1 (S n) h0 EN).
        -- intros n h0 EN. exact (N1 (S n) h0 EN).
  - destruct HU as [HP HU].
    destruct (tuplev_eq P _ _ _ _ _ HP HF) as (f0 & f1 & M0 & M1 & E). destruct (tuplev_eq P _ _ _ _ _ HP HG) as (g0 & g1 & N0 & N1 & E'). cbn in M0, M1, N0, N1, HN.
    intros x w y w'. rewrite E, E'. cbn [sub_ops flat_map]. rewrite hollow_lax. apply then_wider; [eapply class_lax; [exact HP|exact HO|exact M0|exact N0]|].
    destruct (hollow_hint SStrict no_sub_tokens [] [] h); [apply extends_refl|]. apply elements_wider. apply (IH []); auto.
  - destruct HU as [HP HU].
    destruct (iter_eq P _ _ _ _ _ _ _ HP HF) as (f0 & f1 & M0 & M1 & E). destruct (iter_eq P _ _ _ _ _ _ _ HP HG) as (g0 & g1 & N0 & N1 & E'). cbn in M0, M1, N0, N1, HN.
    intros x w y w'. rewrite E, E'. cbn [sub_ops flat_map]. rewrite hollow_lax. apply then_wider; [eapply class_lax; [exact HP|exact HO|exact M0|exact N0]|].
    destruct (hollow_hint SStrict no_sub_tokens [] [] h); [apply extends_refl|]. apply elements_wider. apply (IH []); auto.
  - destruct HU as (HP & HU1 & HU2). cbn in HN. apply free_app in HN. destruct HN as [HN1 HN2].
    destruct (map_eq P _ _ _ _ _ _ _ _ HP HF) as (f0 & f1 & f2 & M0 & M1 & M2 & E). destruct (map_eq P _ _ _ _ _ _ _ _ HP HG) as (g0 & g1 & g2 & N0 & N1 & N2 & E'). cbn in M0, M1, M2, N0, N1, N2.
    intros x w y w'. rewrite E, E'. cbn [sub_ops flat_map]. rewrite !hollow_lax. apply then_wider; [eapply class_lax; [exact HP|exact HO|exact M0|exact N0]|].
    destruct (hollow_hint SStrict no_sub_tokens [] [] hk && hollow_hint SStrict no_sub_tokens [] [] hv); [apply extends_refl|].
    apply items_wider; [apply (IH1 [])|apply (IH2 [])]; auto.
  - eapply simple_lax; [apply gen_simple; exact HF|apply gen_simple; exact HG|reflexivity|exact HO].
  - unfold make_filler, get_filler, bind_filler in HF. cbn in HF. rewrite app_nil_r in HF. destruct own; cbn in HF; discriminate.
  - cbn in HN. apply free_app in HN. destruct HN as [HN1 HN2]. change (make_filler P SStrict (HAnn (HAnn h toks) own) []) with (make_filler P SStrict (HAnn (HAnn h toks) own) (own_only [])) in HF.
    change (make_filler P SCheck (HAnn (HAnn h toks) own) []) with (make_filler P SCheck (HAnn (HAnn h toks) own) (own_only [])) in HG.
    rewrite nested_make in HF, HG. apply (IH (toks ++ own)); auto. apply free_app. auto.
Qed.

(** ** From checking to hollow *)

Lemma unstyled_eff : forall d (ts : list token), forallb no_style ts = true -> eff_style d ts = d.
Proof.
  intros d ts H. unfold eff_style, last_style. assert (E : forall a, fold_left (fun acc (t : token) => match t with TStyle s => s | _ => acc end) ts a = a).
  { induction ts as [|t r IH]; intro a; [reflexivity|]. cbn in *. apply andb_prop in H. destruct H as [H1 H2]. rewrite IH by assumption. destruct t; try reflexivity. discriminate. }
  rewrite E. reflexivity.
Qed.

Lemma unstyled_app : forall (ts us : list token), forallb no_style (ts ++ us) = true <-> forallb no_style ts = true /\ forallb no_style us = true.
Proof. intros. rewrite forallb_app. apply andb_true_iff. Qed.

Lemma unstyled_flat : forall (hs : list hint) h, forallb no_style (flat_map hint_tokens hs) = true -> In h hs -> forallb no_style (hint_tokens h) = true.
Proof.
  induction hs as [|a r IH]; intros h H I; [destruct I|]. cbn in H. apply unstyled_app in H. destruct H as [H1 H2]. destruct I as [<-|I]; [assumption|auto].
Qed.

Lemma unstyled_hollow : forall (h : hint) pre own, forallb no_style (hint_tokens h) = true -> forallb no_style (pre ++ own) = true ->
  hollow_hint SHollow no_sub_tokens pre own h = true.
Proof.
  induction h as [| | | |h IH|hs IH| | |hs IH|h IH|rk t h IH|rk t hk hv IH1 IH2|t hs IH| | |h toks IH] using hint_ind'; intros pre own HN HO; cbn;
    try (rewrite unstyled_eff by assumption; reflexivity); try reflexivity.
  - destruct h; try (apply IH; assumption). reflexivity.
  - apply unstyled_app in HO. destruct HO as [HO1 HO2].
    assert (G : forall i, all_i (fun (i : nat) h => hollow_hint SHollow no_sub_tokens (no_sub_tokens i ++ own ++ pre) [] h) i hs = true); [|apply G].
    cbn in HN. induction IH as [|h hs HH _ IH2]; intro i; [reflexivity|]. cbn in HN. apply unstyled_app in HN. destruct HN as [HN1 HN2].
    cbn [all_i]. rewrite HH; [apply IH2; assumption|assumption|]. cbn. rewrite app_nil_r. apply unstyled_app. auto.
  - cbn in HN. apply unstyled_app in HN. destruct HN as [HN1 HN2]. apply unstyled_app in HO. destruct HO as [HO1 HO2].
    apply IH; [assumption|]. rewrite !forallb_app, HO1, HN2, HO2. reflexivity.
Qed.

Lemma simple_hollow : forall k inner d h ts f g, checks d -> simple_make d h ts f k inner -> simple_make SHollow h ts g k inner ->
  inner SHollow = [] -> has_coercer ts = false -> forallb no_style ts = true -> Forall testing ts ->
  forall x w y w', call P f x w = (Ok y, w') -> call P g x w = (Ok x, w).
Proof.
  intros k inner d h ts f g HC (toks & cs & vs & b & C & V & E) (toks' & cs' & vs' & b' & C' & V' & E') HI HN HS HT x w y w' HF.
  rewrite C in C'. injection C' as <-. rewrite V in V'. injection V' as <-. rewrite (no_coercers P _ _ _ C HN) in *.
  rewrite !unstyled_eff in * by assumption. rewrite call_eq in *. rewrite E in HF. rewrite E'. rewrite HI, app_nil_r.
  unfold afill in *. cbn [a_kind a_style a_coercers a_validators] in *. unfold bind in *.
  destruct (type_phase P k d [] x w) as [[[z q]|e] w1] eqn:ET; [|discriminate].
  destruct (type_phase_ok P _ _ _ _ _ _ _ _ HC ET) as [(-> & -> & _)|(NE & _)]; [|destruct NE; reflexivity].
  cbn [type_phase fst snd] in *. rewrite run_validators_app in HF. unfold bind in HF.
  destruct (tests_run vs x w (testing_declared P _ _ _ HT V)) as [(e & He)|Ho].
  - rewrite He in HF. discriminate.
  - rewrite Ho. reflexivity.
Qed.

Lemma class_hollow : forall t d ts f g, plain_class P t -> checks d -> has_coercer ts = false -> forallb no_style ts = true -> Forall testing ts ->
  make_filler P d (HAnn (HTy t) ts) [] = Ok f -> make_filler P SHollow (HAnn (HTy t) ts) [] = Ok g ->
  forall x w y w', call P f x w = (Ok y, w') -> call P g x w = (Ok x, w).
Proof.
  intros t d ts f g HP HC HN HS HT HF HG. eapply simple_hollow; [exact HC|eapply leaf_simple; [apply class_leaf; exact HP|exact HF]|eapply leaf_simple; [apply class_leaf; exact HP|exact HG]|reflexivity|exact HN|exact HS|exact HT].
Qed.

Lemma hollow_calls : forall d (h : hint) own f g, checks d -> plain_containers P h ->
  has_coercer (hint_tokens h ++ own) = false -> forallb no_style (hint_tokens h ++ own) = true -> Forall testing own -> Forall testing (hint_tokens h) ->
  make_filler P d (HAnn h own) [] = Ok f -> make_filler P SHollow (HAnn h own) [] = Ok g ->
  forall x w y w', call P f x w = (Ok y, w') -> call P g x w = (Ok x, w).
Proof.
  intros d. induction h as [t| | | |h IH|hs IH|l vs|base|hs IH|h IH|rk t h IH|rk t hk hv IH1 IH2|t hs IH|t| |h toks IH] using hint_ind'; intros own f g HC HU HN HS HT HT2 HF HG;
  pose proof HN as HN0; pose proof HS as HS0; apply free_app in HN0; destruct HN0 as [HNh HNo]; apply unstyled_app in HS0; destruct HS0 as [HSh HSo].
  1,2,3,4,7,14: eapply simple_hollow; [exact HC|eapply leaf_simple; [|exact HF]; reflexivity|eapply leaf_simple; [|exact HG]; reflexivity| |exact HNo|exact HSo|exact HT];
    cbn; try reflexivity.
  all: try (unfold class_kind; repeat match goal with |- context [if ?b then _ else _] => destruct b end; reflexivity).
  - assert (E : forall d f, make_filler P d (HAnn (HNewType h) own) [] = Ok f -> annotated h = false -> make_filler P d (HAnn h own) [] = Ok f).
    { intros d0 f0 H HA. rewrite <- H. unfold make_filler, get_filler. cbn. destruct h; try reflexivity. discriminate. }
    destruct (annotated h) eqn:EA.
    + destruct h; try discriminate. unfold make_filler, get_filler, bind_filler in HF. cbn in HF. rewrite app_nil_r in HF.
      destruct own; cbn in HF; [destruct HC as [-> | ->]; discriminate HF|discriminate HF].
    + apply (IH own f g); auto.
  - (* Union *)
    assert (AH : all_i (fun (n : nat) h => hollow_hint SHollow no_sub_tokens (sub_ops [] n ++ own ++ own_ops []) [] h) 0 hs = true).
    { clear - HSh HSo. generalize 0. cbn in HSh. induction hs as [|h r IHr]; intro i; [reflexivity|]. cbn in HSh. apply unstyled_app in HSh. destruct HSh as [H1 H2].
      cbn [all_i]. rewrite unstyled_hollow; [apply IHr; assumption|assumption|]. cbn. rewrite !app_nil_r. assumption. }
    intros x w y w' _. destruct hs as [|h r].
    + unfold make_filler, get_filler, bind_filler in HG. cbn in HG. rewrite app_nil_r in HG. injection HG as <-. reflexivity.
    + assert (NE : h :: r <> []) by discriminate. destruct (union_eq P _ _ _ _ _ NE HG) as (gs & _ & _ & E). rewrite E, AH. reflexivity.
  - eapply simple_hollow; [exact HC|apply type_simple; exact HF|apply type_simple; exact HG|reflexivity|exact HNo|exact HSo|exact HT].
  - destruct (tuplen_eq P _ _ _ _ _ HU HF) as (f0 & fs & M0 & L & M1 & E). destruct (tuplen_eq P _ _ _ _ _ HU HG) as (g0 & gs & N0 & L' & N1 & E').
    cbn [own_ops flat_map app own_only map] in *. intros x w y w' HX. rewrite E in HX. rewrite E'. unfold bind in *.
    destruct (call P f0 x w) as [[z|e] w1] eqn:E0; [|discriminate].
    rewrite (class_hollow _ _ _ _ _ HU HC HNo HSo HT M0 N0 _ _ _ _ E0).
    rewrite (unstyled_eff SHollow own HSo). cbn [style_eqb].
    assert (AH : all_i (fun (n : nat) h => hollow_hint SHollow no_sub_tokens (sub_ops [] n) [] h) 0 hs = true).
    { clear - HSh. generalize 0. cbn in HSh. induction hs as [|h r IHr]; intro i; [reflexivity|]. cbn in HSh. apply unstyled_app in HSh. destruct HSh as [H1 H2].
      cbn [all_i]. rewrite unstyled_hollow; [apply IHr; assumption|assumption|reflexivity]. }
    rewrite AH. reflexivity.
  - destruct (tuplev_eq P _ _ _ _ _ HU HF) as (f0 & f1 & M0 & M1 & E). destruct (tuplev_eq P _ _ _ _ _ HU HG) as (g0 & g1 & N0 & N1 & E').
    cbn in M0, N0, HSh. intros x w y w' HX. rewrite E in HX. rewrite E'. unfold bind in *. destruct (call P f0 x w) as [[z|e] w1] eqn:E0; [|discriminate].
    rewrite (class_hollow _ _ _ _ _ HU HC HNo HSo HT M0 N0 _ _ _ _ E0). rewrite unstyled_hollow; [reflexivity|assumption|reflexivity].
  - destruct (iter_eq P _ _ _ _ _ _ _ HU HF) as (f0 & f1 & M0 & M1 & E). destruct (iter_eq P _ _ _ _ _ _ _ HU HG) as (g0 & g1 & N0 & N1 & E').
    cbn in M0, N0, HSh. intros x w y w' HX. rewrite E in HX. rewrite E'. unfold bind in *. destruct (call P f0 x w) as [[z|e] w1] eqn:E0; [|discriminate].
    rewrite (class_hollow _ _ _ _ _ HU HC HNo HSo HT M0 N0 _ _ _ _ E0). rewrite unstyled_hollow; [reflexivity|assumption|reflexivity].
  - destruct (map_eq P _ _ _ _ _ _ _ _ HU HF) as (f0 & f1 & f2 & M0 & M1 & M2 & E). destruct (map_eq P _ _ _ _ _ _ _ _ HU HG) as (g0 & g1 & g2 & N0 & N1 & N2 & E').
    cbn in M0, N0, HSh. apply unstyled_app in HSh. destruct HSh as [HS1 HS2]. intros x w y w' HX. rewrite E in HX. rewrite E'. unfold bind in *. destruct (call P f0 x w) as [[z|e] w1] eqn:E0; [|discriminate].
    rewrite (class_hollow _ _ _ _ _ HU HC HNo HSo HT M0 N0 _ _ _ _ E0). rewrite !unstyled_hollow by (assumption || reflexivity). reflexivity.
  - eapply simple_hollow; [exact HC|apply gen_simple; exact HF|apply gen_simple; exact HG|reflexivity|exact HNo|exact HSo|exact HT].
  - unfold make_filler, get_filler, bind_filler in HF. cbn in HF. rewrite app_nil_r in HF. destruct own; cbn in HF; [destruct HC as [-> | ->]; discriminate HF|discriminate HF].
  - change (make_filler P d (HAnn (HAnn h toks) own) []) with (make_filler P d (HAnn (HAnn h toks) own) (own_only [])) in HF.
    change (make_filler P SHollow (HAnn (HAnn h toks) own) []) with (make_filler P SHollow (HAnn (HAnn h toks) own) (own_only [])) in HG.
    rewrite nested_make in HF, HG. cbn in HN, HS, HT2. rewrite <- app_assoc in HN, HS. apply Forall_app in HT2. destruct HT2 as [HT2 HT3].
    apply (IH (toks ++ own) f g); auto. apply Forall_app. auto.
Qed.
(** ** From strict to instances of subclasses, with Unions, if the validators are tests *)
Section Tests.
Hypothesis runtime : settled_runtime P.

Lemma tests_settled : forall d ts own h, settling P d ts own h -> settled P d ts own h.
Proof. intros d ts own h H. destruct runtime as (H1 & H2 & H3). exact (settling_settled P H1 H2 H3 h d ts own H). Qed.

Lemma pre_simple : forall k inner h ts own f g, has_coercer (ts ++ own) = false -> inner SStrict = inner SCheck ->
  (forall d f, make_filler P d (HAnn h own) (own_only ts) = Ok f -> simple_make d h (ts ++ own) f k inner) ->
  make_filler P SStrict (HAnn h own) (own_only ts) = Ok f -> make_filler P SCheck (HAnn h own) (own_only ts) = Ok g ->
  extends (call P f) (call P g).
Proof. intros k inner h ts own f g HN HI HM HF HG. eapply simple_lax; [apply HM; exact HF|apply HM; exact HG|exact HI|exact HN]. Qed.

Lemma leaf_pre : forall h k d ts own f, leaf_kind P h = Some k -> make_filler P d (HAnn h own) (own_only ts) = Ok f ->
  simple_make d h (ts ++ own) f k (lit_validators P k).
Proof.
  intros h k d ts own f HK HM. destruct (leaf_make P _ _ _ _ _ _ HK HM) as (cs & vs & C & V & -> & _).
  rewrite own_ops_own_only in *. exists own, cs, vs, true. split; [exact C|]. split; [exact V|]. reflexivity.
Qed.

Lemma type_pre : forall base d ts own f, make_filler P d (HAnn (HType base) own) (own_only ts) = Ok f ->
  simple_make d (HType base) (ts ++ own) f (KSimple (t_type P)) (type_inner base).
Proof.
  intros base d ts own f HM. unfold make_filler, get_filler, bind_filler in HM. cbn in HM. rewrite app_nil_r in HM. oinv HM. apply ops_type in HMa. destruct HMa as (a1 & -> & HO).
  cbn in HM. oinv HM. injection HM as <-.
  destruct (bound_afiller P _ _ _ _ _ _ HO HMa) as (cs & vs & C & V & -> & H1 & H2). rewrite own_ops_own_only in *.
  unfold ahollow, type_inner. cbn [a_style]. exists own, cs, vs, true. split; [exact C|]. split; [exact V|].
  intro x. destruct (style_eqb (eff_style d (ts ++ own)) SHollow); cbn; rewrite ?app_nil_r; reflexivity.
Qed.

Lemma class_pre : forall t ts own f g, plain_class P t -> has_coercer (ts ++ own) = false ->
  make_filler P SStrict (HAnn (HTy t) own) (own_only ts) = Ok f -> make_filler P SCheck (HAnn (HTy t) own) (own_only ts) = Ok g -> extends (call P f) (call P g).
Proof.
  intros t ts own f g HP HN HF HG. eapply (pre_simple (KSimple t)); [exact HN| |intros d f0 H; eapply leaf_pre; [apply class_leaf; exact HP|exact H]|exact HF|exact HG]. reflexivity.
Qed.

Lemma lax_pre : forall (h : hint) pre own, hollow_hint SCheck no_sub_tokens pre own h = hollow_hint SStrict no_sub_tokens pre own h.
Proof.
  assert (S : forall ts : list token, style_eqb (eff_style SCheck ts) SHollow = style_eqb (eff_style SStrict ts) SHollow).
  { intro ts. destruct (eff_either ts) as [-> | [-> ->]]; reflexivity. }
  induction h as [| | | |h IH|hs IH| | |hs IH|h IH|rk t h IH|rk t hk hv IH1 IH2|t hs IH| | |h toks IH] using hint_ind'; intros pre own; cbn; try apply S; try reflexivity.
  - destruct h; try apply IH. reflexivity.
  - generalize 0. induction IH as [|h hs HH _ IH2]; intro i; [reflexivity|]. cbn [all_i]. rewrite HH, IH2. reflexivity.
  - apply IH.
Qed.

Lemma all_lax : forall (hs : list hint) (pre : nat -> list token) i,
  all_i (fun n h => hollow_hint SCheck no_sub_tokens (pre n) [] h) i hs = all_i (fun n h => hollow_hint SStrict no_sub_tokens (pre n) [] h) i hs.
Proof. induction hs as [|h r IH]; intros pre i; [reflexivity|]. cbn [all_i]. rewrite lax_pre, IH. reflexivity. Qed.

Lemma union_lax : forall hs ts own f g, hs <> [] -> Forall uninterrupted (flat_map hint_tokens hs ++ own ++ ts) ->
  (forall h, In h hs -> is_union h = false /\ settled P SStrict (own ++ ts) [] h /\ settled P SCheck (own ++ ts) [] h /\ coercer_free (own ++ ts) h = true /\ has_literal h = false /\
     forall f g, make_filler P SStrict (HAnn h []) (own_only (own ++ ts)) = Ok f -> make_filler P SCheck (HAnn h []) (own_only (own ++ ts)) = Ok g -> extends (call P f) (call P g)) ->
  make_filler P SStrict (HAnn (HUnion hs) own) (own_only ts) = Ok f -> make_filler P SCheck (HAnn (HUnion hs) own) (own_only ts) = Ok g ->
  (forall x w y w', call P f x w = (Ok y, w') -> y = x /\ w' = w) -> extends (call P f) (call P g).
Proof.
  intros hs ts own f g HN HU HH HF HG HX.
  destruct (union_eq P _ _ _ _ _ HN HF) as (fs & LF & GF & CF). destruct (union_eq P _ _ _ _ _ HN HG) as (gs & LG & GG & CG). rewrite own_ops_own_only in *.
  assert (Mem : forall d ks, List.length ks = List.length hs ->
      (forall n h, nth_error hs n = Some h -> exists g, nth_error ks n = Some g /\ make_filler P d h (own_only (sub_ops (own_only ts) n ++ own ++ ts)) = Ok g) ->
      forall F, In F (map (fill P) ks) -> exists n h k, nth_error hs n = Some h /\ nth_error ks n = Some k /\ make_filler P d (HAnn h []) (own_only (own ++ ts)) = Ok k /\ F = fill P k).
  { clear. intros d ks L G F I. apply in_map_iff in I. destruct I as (k & <- & I). apply In_nth_error in I. destruct I as (n & E).
    destruct (nth_error hs n) as [h|] eqn:EH.
    - destruct (G n h EH) as (k' & E' & M). assert (k' = k) by congruence. subst k'. rewrite sub_ops_own_only in M. exists n, h, k. auto.
    - apply nth_error_None in EH. assert (n < List.length ks) by (apply nth_error_Some; congruence). lia. }
  intros x w y w' H. destruct (HX _ _ _ _ H) as [-> ->]. clear HX. rewrite CF in H. rewrite CG.
  rewrite (all_lax hs (fun n => sub_ops (own_only ts) n ++ own ++ ts)). destruct (all_i _ 0 hs); [assumption|].
  unfold bind in *. destruct (attempts (map (fill P) fs) x w) as [[os|e] w0] eqn:EA; [|discriminate].
  unfold lift in H. assert (HV : verdict P os = Ok x) by (destruct (verdict P os); congruence). clear H.
  apply (proj1 (Filler_main.c09_verdict_proof P os) x) in HV. destruct HV as (p & [HB _] & _).
  destruct (attempts_ok _ _ _ _ _ EA _ HB) as (F & w2 & w3 & IF & EF).
  destruct (Mem SStrict fs LF GF F IF) as (n & h & k & Eh & Ek & M & ->).
  assert (I : In h hs) by (eapply nth_error_In; exact Eh). destruct (HH h I) as (NU & SF & SG & FR & LT & EXT).
  destruct (SF k M) as [S1 _]. destruct (S1 _ _ _ _ _ EF) as (Y1 & _ & _).
  destruct (GG n h Eh) as (k2 & Ek2 & M2). rewrite sub_ops_own_only in M2. cbn [app] in M2.
  assert (CI : forall F w e w', In F (map (fill P) gs) -> F x w = (Raise e, w') -> is_Exception e = true).
  { intros F0 w1 e w4 HI HF0. destruct (Mem SCheck gs LG GG F0 HI) as (n0 & h0 & k0 & E0 & _ & M0 & ->). destruct runtime as (_ & _ & HR).
    eapply uninterrupted_fill; [exact HR|exact M0| |exact HF0].
    apply Forall_app in HU. destruct HU as [U1 U2]. cbn [hint_tokens]. rewrite app_nil_r. apply Forall_app. split.
    - apply (Forall_tokens uninterrupted hs h0 U1). eapply nth_error_In; exact E0.
    - unfold own_only. rewrite map_map. cbn. rewrite map_id. assumption. }
  destruct (attempts_run (map (fill P) gs) x CI w) as (os2 & w4 & EA2 & EL2 & EN2).
  rewrite EA2.
  assert (w4 = w).
  { eapply attempts_still; [|exact EA2]. intros F2 w8 o2 w9 IF2 EF2. destruct (Mem SCheck gs LG GG F2 IF2) as (n0 & h0 & k0 & E0 & _ & M0 & ->).
    destruct (HH h0 (nth_error_In _ _ E0)) as (_ & _ & SG0 & FR0 & LT0 & _). destruct (SG0 k0 M0) as [_ S4]. eapply S4; [exact FR0|exact LT0|exact EF2]. }
  subst w4. assert (V2 : verdict P os2 = Ok x); [|unfold lift; rewrite V2; reflexivity].
  assert (En : nth_error (map (fill P) gs) n = Some (fill P k2)) by (apply map_nth_error; exact Ek2).
  assert (exists o, nth_error os2 n = Some o) as (o & Eo).
  { destruct (nth_error os2 n) as [o|] eqn:E; [eauto|]. apply nth_error_None in E. assert (n < List.length (map (fill P) gs)) by (apply nth_error_Some; congruence). lia. }
  destruct (EN2 _ _ _ En Eo) as (w5 & w6 & E5). destruct (Y1 w5) as (q & w7 & E7 & _).
  assert (C7 : call P k x w5 = (Ok x, w7)) by (rewrite call_eq, E7; reflexivity).
  apply (EXT k k2 M M2) in C7. destruct (call_fill P _ _ _ _ _ C7) as (q2 & E8). rewrite E8 in E5. injection E5 as <- <-.
  destruct (SG k2 M2) as [S3 _]. destruct (S3 _ _ _ _ _ E8) as (Y2 & _). destruct (Y2 w5) as (q3 & w10 & E9 & G & _). rewrite E8 in E9. injection E9 as <- _.
  eapply verdict_settles; [eapply nth_error_In; exact Eo|exact (G NU)|].
  intros v p0 I2 _. destruct (attempts_ok _ _ _ _ _ EA2 _ I2) as (F2 & w8 & w9 & IF2 & EF2).
  destruct (Mem SCheck gs LG GG F2 IF2) as (n0 & h0 & k0 & E0 & _ & M0 & ->). destruct (HH h0 (nth_error_In _ _ E0)) as (_ & _ & SG0 & FR0 & _).
  destruct (SG0 k0 M0) as [S5 _]. destruct (S5 _ _ _ _ _ EF2) as (_ & _ & Z2). exact (Z2 FR0).
Qed.

Lemma lit_part : forall (hs : list hint) h, existsb has_literal hs = false -> In h hs -> has_literal h = false.
Proof. intros hs h H I. destruct (has_literal h) eqn:E; [|reflexivity]. assert (existsb has_literal hs = true) by (apply existsb_exists; eauto). congruence. Qed.

Lemma lax_tests : forall (h : hint) ts own f g, settling P SStrict ts own h -> settling P SCheck ts own h ->
  coercer_free (own ++ ts) h = true -> has_literal h = false ->
  make_filler P SStrict (HAnn h own) (own_only ts) = Ok f -> make_filler P SCheck (HAnn h own) (own_only ts) = Ok g -> extends (call P f) (call P g).
Proof.
  induction h as [t| | | |h IH|hs IH|l vs|base|hs IH|h IH|rk t h IH|rk t hk hv IH1 IH2|t hs IH|t| |h toks IH] using hint_ind'; intros ts own f g HS HS2 HN HL HF HG;
  pose proof (coercer_free_own _ _ _ HN) as HO.
  1,2,3,4,14: match type of HF with make_filler _ _ (HAnn ?h _) _ = _ => refine (pre_simple _ _ h _ _ _ _ HO _ (fun d f0 H => leaf_pre h _ d _ _ f0 eq_refl H) HF HG) end; cbn; try reflexivity.
  all: try (unfold class_kind; repeat match goal with |- context [if ?b then _ else _] => destruct b end; reflexivity).
  - assert (E : forall d f, make_filler P d (HAnn (HNewType h) own) (own_only ts) = Ok f -> annotated h <> true -> make_filler P d (HAnn h own) (own_only ts) = Ok f).
    { intros d f0 H HA. rewrite <- H. unfold make_filler, get_filler. cbn. destruct h; try reflexivity. destruct HA. reflexivity. }
    destruct HS as [HA HS]. destruct HS2 as [_ HS2]. apply (IH ts own); auto.
  - pose proof (tests_settled _ _ _ _ HS) as ST. cbn in HS, HS2. destruct HS as (HE & HI & HA). destruct HS2 as (_ & _ & HA2). apply all_p_Forall in HA, HA2. rewrite Forall_forall in IH, HA, HA2.
    assert (HX : forall x w y w', call P f x w = (Ok y, w') -> y = x /\ w' = w).
    { intros x w y w' H. destruct (call_fill P _ _ _ _ _ H) as (q & E). destruct (ST f HF) as [A B]. destruct (A _ _ _ _ _ E) as (_ & _ & Z). split; [exact (Z HN)|exact (B HN HL _ _ _ _ E)]. }
    apply (union_lax hs ts own); auto. intros h I. destruct (HA h I) as (A1 & A2 & A3). destruct (HA2 h I) as (_ & _ & B3).
    assert (FR : coercer_free (own ++ ts) h = true).
    { unfold coercer_free in HN. apply negb_true_iff in HN. cbn [hint_tokens] in HN. apply (coercer_free_member hs); assumption. }
    assert (LT : has_literal h = false) by (eapply lit_part; [exact HL|exact I]).
    split; [assumption|]. split; [apply tests_settled; assumption|]. split; [apply tests_settled; assumption|]. split; [assumption|]. split; [assumption|].
    intros f0 g0 M M2. apply (IH h I (own ++ ts) []); auto.
  - discriminate.
  - eapply pre_simple; [exact HO| |intros d f0 H; apply type_pre; exact H|exact HF|exact HG]. reflexivity.
  - cbn in HS, HS2. destruct HS as ((HP & _) & HA). destruct HS2 as (_ & HA2). apply all_p_Forall in HA, HA2. rewrite Forall_forall in IH, HA, HA2.
    destruct (tuplen_eq P _ _ _ _ _ HP HF) as (f0 & fs & M0 & L & M1 & E). destruct (tuplen_eq P _ _ _ _ _ HP HG) as (g0 & gs & N0 & L' & N1 & E').
    rewrite own_ops_own_only in *. intros x w y w'. rewrite E, E'. rewrite (all_lax hs (fun n => sub_ops (own_only ts) n)).
    apply then_wider; [eapply class_pre; [exact HP|exact HO|exact M0|exact N0]|].
    destruct (all_i _ 0 hs).
    + replace (style_eqb (eff_style SCheck (ts ++ own)) SHollow) with (style_eqb (eff_style SStrict (ts ++ own)) SHollow); [apply extends_refl|].
      destruct (eff_either (ts ++ own)) as [-> | [-> ->]]; reflexivity.
    + apply positions_wider. clear E E' HF HG M0 N0 x w y w'.
      assert (Q : forall h, In h hs -> forall f g, make_filler P SStrict h [] = Ok f -> make_filler P SCheck h [] = Ok g -> extends (call P f) (call P g)).
      { intros h I f1 g1 A B. apply (IH h I [] [] f1 g1); auto.
        - eapply free_part; [|exact HN]. cbn. intros t It. apply in_flat_map. eauto.
        - eapply lit_part; [exact HL|exact I]. }
      assert (M1' : forall n h, nth_error hs n = Some h -> exists g, nth_error fs n = Some g /\ make_filler P SStrict h [] = Ok g).
      { intros n h En. destruct (M1 n h En) as (k & A & B). rewrite sub_ops_own_only in B. exists k. auto. }
      assert (N1' : forall n h, nth_error hs n = Some h -> exists g, nth_error gs n = Some g /\ make_filler P SCheck h [] = Ok g).
      { intros n h En. destruct (N1 n h En) as (k & A & B). rewrite sub_ops_own_only in B. exists k. auto. }
      clear IH HA HA2 HN HL M1 N1. revert fs gs L L' M1' N1'. induction hs as [|h r IHr]; intros fs gs L L' M1 N1; (destruct fs as [|f1 fs]; [|]; destruct gs as [|g1 gs]; try discriminate).
      * constructor.
      * destruct (M1 0 h eq_refl) as (f2 & A & B). destruct (N1 0 h eq_refl) as (g2 & A' & B'). cbn in A, A'. injection A as <-. injection A' as <-.
        cbn. constructor; [apply (Q h); [left; reflexivity|exact B|exact B']|]. apply IHr.
        -- intros h0 I. apply Q. right. assumption.
        -- cbn in L. lia.
        -- cbn in L'. lia.
        -- intros n h0 EN. exact (M1 (S n) h0 EN).
        -- intros n h0 EN. exact (N1 (S n) h0 EN).
  - cbn in HS, HS2. destruct HS as ((HP & _) & HA). destruct HS2 as (_ & HA2).
    destruct (tuplev_eq P _ _ _ _ _ HP HF) as (f0 & f1 & M0 & M1 & E). destruct (tuplev_eq P _ _ _ _ _ HP HG) as (g0 & g1 & N0 & N1 & E'). rewrite own_ops_own_only, sub_ops_own_only in *.
    intros x w y w'. rewrite E, E', lax_pre. apply then_wider; [eapply class_pre; [exact HP|exact HO|exact M0|exact N0]|].
    rewrite lax_pre in HA2. destruct (hollow_hint SStrict no_sub_tokens [] [] h) eqn:EH; [apply extends_refl|]. destruct HA as [HA|HA]; [congruence|]. destruct HA2 as [HA2|HA2]; [congruence|].
    apply elements_wider. apply (IH [] []); auto. eapply free_part; [|exact HN]. cbn. auto.
  - cbn in HS, HS2. destruct HS as ((HP & _) & HA). destruct HS2 as (_ & HA2).
    destruct (iter_eq P _ _ _ _ _ _ _ HP HF) as (f0 & f1 & M0 & M1 & E). destruct (iter_eq P _ _ _ _ _ _ _ HP HG) as (g0 & g1 & N0 & N1 & E'). rewrite own_ops_own_only, sub_ops_own_only in *.
    intros x w y w'. rewrite E, E', lax_pre. apply then_wider; [eapply class_pre; [exact HP|exact HO|exact M0|exact N0]|].
    rewrite lax_pre in HA2. destruct (hollow_hint SStrict no_sub_tokens [] [] h) eqn:EH; [apply extends_refl|]. destruct HA as [HA|HA]; [congruence|]. destruct HA2 as [HA2|HA2]; [congruence|].
    apply elements_wider. apply (IH [] []); auto. eapply free_part; [|exact HN]. cbn. auto.
  - cbn in HS, HS2. destruct HS as ((HP & _) & HA). destruct HS2 as (_ & HA2). cbn in HL. apply orb_false_iff in HL. destruct HL as [HL1 HL2].
    destruct (map_eq P _ _ _ _ _ _ _ _ HP HF) as (f0 & f1 & f2 & M0 & M1 & M2 & E). destruct (map_eq P _ _ _ _ _ _ _ _ HP HG) as (g0 & g1 & g2 & N0 & N1 & N2 & E'). rewrite own_ops_own_only, !sub_ops_own_only in *.
    intros x w y w'. rewrite E, E', !lax_pre. apply then_wider; [eapply class_pre; [exact HP|exact HO|exact M0|exact N0]|].
    rewrite !lax_pre in HA2. destruct (hollow_hint SStrict no_sub_tokens [] [] hk && hollow_hint SStrict no_sub_tokens [] [] hv); [apply extends_refl|].
    destruct HA as [HA|[A1 A2]]; [discriminate|]. destruct HA2 as [HA2|[B1 B2]]; [discriminate|].
    apply items_wider; [apply (IH1 [] [])|apply (IH2 [] [])]; auto; (eapply free_part; [|exact HN]; cbn; intros t0 It; apply in_or_app; auto).
  - destruct HS.
  - destruct HS.
  - rewrite nested_make in HF, HG. apply (IH ts (toks ++ own)); auto. rewrite <- HN. unfold coercer_free. cbn [hint_tokens]. rewrite <- !app_assoc. reflexivity.
Qed.
End Tests.
End Lemmas.

Lemma c161_check_partial_proof : forall {obj ty W} (P : Py obj ty W) h f g,
  unionless P h -> has_coercer (hint_tokens h) = false ->
  make_filler P SStrict h [] = Ok f -> make_filler P SCheck h [] = Ok g ->
  forall x w y w', call P f x w = (Ok y, w') -> call P g x w = (Ok y, w').
Proof.
 intros obj ty W P h f g HU HN HF HG. exact (lax_calls P h [] f g HU HN eq_refl HF HG). Qed.

Lemma c161_tests_partial_proof : forall {obj ty W} (P : Py obj ty W) h f g,
  settled_runtime P -> settling P SStrict [] [] h -> settling P SCheck [] [] h -> coercer_free [] h = true -> has_literal h = false ->
  make_filler P SStrict h [] = Ok f -> make_filler P SCheck h [] = Ok g ->
  forall x w y w', call P f x w = (Ok y, w') -> call P g x w = (Ok y, w').
Proof.
 intros obj ty W P h f g HR HS HS2 HN HL HF HG. exact (lax_tests P HR h [] [] f g HS HS2 HN HL HF HG). Qed.

Import Record_proofs Dict_proofs Classes_proofs.
Section Records.
Context {obj ty W : Type} (R : Rt obj ty W).
Notation P := (rt_py R).
Notation cls := (@cls obj ty W).

Definition accepts_more (fs fs' : dict (@field obj ty W)) : Prop :=
  keys fs' = keys fs /\ required_keys fs' = required_keys fs /\
  forall k, match dget k fs, dget k fs' with
  | Some f, Some f' => f_default f' = f_default f /\ extends (call P (f_filler f)) (call P (f_filler f'))
  | None, None => True
  | _, _ => False
  end.

Lemma more_kwargs : forall c c', accepts_more (c_fields c) (c_fields c') -> forall kw w v w',
  fill_kwargs R c (none R) kw w = (Ok v, w') -> fill_kwargs R c' (none R) kw w = (Ok v, w').
Proof.
  intros c c' (_ & _ & H). induction kw as [|[k a] r IH]; intros w v w' HF; [exact HF|]. cbn in *. pose proof (H k) as G.
  destruct (dget k (c_fields c)) as [f|]; destruct (dget k (c_fields c')) as [f'|]; try (destruct G; fail); [|discriminate].
  destruct G as [_ G]. destruct (call P (f_filler f) a w) as [[y|e] w1] eqn:E.
  - rewrite (G _ _ _ _ E). unfold bind in *. destruct (fill_kwargs R c (none R) r w1) as [[ys|e] w2] eqn:E2; [|discriminate].
    rewrite (IH _ _ _ E2). exact HF.
  - destruct (negb (is_Exception e)); [discriminate|]. rewrite is_none_none in HF. discriminate.
Qed.

Lemma more_defaults : forall c c', accepts_more (c_fields c) (c_fields c') -> forall ks w,
  fill_defaults c' ks w = fill_defaults c ks w.
Proof.
  intros c c' (_ & _ & H). induction ks as [|k r IH]; intros w; [reflexivity|]. cbn. pose proof (H k) as G.
  unfold bind. destruct (dget k (c_fields c)) as [f|]; destruct (dget k (c_fields c')) as [f'|]; try (destruct G; fail); [|reflexivity].
  destruct G as [G _]. unfold make_default. rewrite G. destruct (f_default f); cbn; unfold ret, raise; try reflexivity;
  rewrite ?IH; try reflexivity. destruct (f0 w) as [[v|e] w1]; [|reflexivity]. rewrite IH. reflexivity.
Qed.

Lemma more_build : forall t fs fs' fd fr o u s s' ps pn, accepts_more fs fs' -> forall kw w v w',
  build R (Cls t fs fd fr o u s ps pn) (none R) kw w = (Ok v, w') -> build R (Cls t fs' fd fr o u s' ps pn) (none R) kw w = (Ok v, w').
Proof.
  intros t fs fs' fd fr o u s s' ps pn H kw w v w' HB. unfold build in *. cbn [c_fields] in *.
  assert (HO : optional_keys fs' = optional_keys fs) by (destruct H as (H1 & H2 & _); unfold optional_keys; rewrite H1, H2; reflexivity).
  assert (K : forall l, forallb (fun k => dmem k fs') l = forallb (fun k => dmem k fs) l).
  { destruct H as (_ & _ & H). induction l as [|k r IH]; [reflexivity|]. cbn. rewrite IH. specialize (H k). unfold dmem. destruct (dget k fs), (dget k fs'); tauto. }
  rewrite K, HO. replace (required_keys fs') with (required_keys fs) by (destruct H as (_ & H2 & _); congruence).
  destruct (negb (forallb _ (keys kw))); [discriminate|]. unfold bind in HB |- *.
  destruct (fill_kwargs R (Cls t fs fd fr o u s ps pn) (none R) kw w) as [[vs|e] w1] eqn:E; [|discriminate].
  rewrite (more_kwargs (Cls t fs fd fr o u s ps pn) (Cls t fs' fd fr o u s' ps pn) H _ _ _ _ E).
  destruct vs as [vs|]; [|exact HB]. destruct (negb (forallb _ _)); [discriminate|].
  rewrite (more_defaults (Cls t fs fd fr o u s ps pn) (Cls t fs' fd fr o u s' ps pn) H). exact HB.
Qed.

Lemma more_new : forall t fs fs' fd fr o s s' ps pn n arg, accepts_more fs fs' -> forall kw w v w',
  new R (S n) (Cls t fs fd fr o false s ps pn) arg kw w = (Ok v, w') -> new R (S n) (Cls t fs' fd fr o false s' ps pn) arg kw w = (Ok v, w').
Proof.
  intros t fs fs' fd fr o s s' ps pn n [a|] H kw w v w' HN; [|exact (more_build _ _ _ _ _ _ _ _ _ _ _ H _ _ _ _ HN)]. cbn [new] in *. cbn [c_fields c_unary] in *.
  replace (required_keys fs') with (required_keys fs) by (destruct H as (_ & H2 & _); congruence). unfold bind in *.
  replace (match kw with [] => ret (none R) | _ :: _ => ret (none R) end) with (@ret W obj (none R)) in * by (destruct kw; reflexivity).
  unfold ret in *. destruct (negb (Nat.eqb _ 1)); [exact HN|]. destruct (required_keys fs) as [|k r]; [exact HN|]. destruct (dmem k kw); [exact HN|].
  eapply more_build; eassumption.
Qed.

Lemma more_construct : forall t fs fs' fd fr o s s' ps pn n pos, accepts_more fs fs' -> forall kw w v w',
  construct R (S n) (Cls t fs fd fr o false s ps pn) pos kw w = (Ok v, w') -> construct R (S n) (Cls t fs' fd fr o false s' ps pn) pos kw w = (Ok v, w').
Proof.
  intros t fs fs' fd fr o s s' ps pn n pos H kw w v w' HC. unfold construct, call_cls in *. destruct (dmem "cls" kw); [exact HC|]. unfold bind in *. cbn [c_ty] in *.
  set (after := fun r : obj => if isinstance P r t && dmem "self" kw then @raise W obj (mkexc TypeError "multiple values for argument 'self'") else @ret W obj r) in *.
  assert (K : forall a kw', (let (o1, w1) := new R (S n) (Cls t fs fd fr o false s ps pn) a kw' w in match o1 with Ok r => after r w1 | Raise e => (Raise e, w1) end) = (Ok v, w') ->
    (let (o1, w1) := new R (S n) (Cls t fs' fd fr o false s' ps pn) a kw' w in match o1 with Ok r => after r w1 | Raise e => (Raise e, w1) end) = (Ok v, w')).
  { intros a kw' E. destruct (new R (S n) (Cls t fs fd fr o false s ps pn) a kw' w) as [[r|e] w1] eqn:EN; [|discriminate]. rewrite (more_new _ _ _ _ _ _ _ s' _ _ _ _ H _ _ _ _ EN). exact E. }
  destruct pos as [a|], (dget "arg" kw) as [b|]; first [exact HC|apply K; exact HC].
Qed.

Lemma restyled_own : forall d s l, own_fields P (restyled d s) l = own_fields P d l.
Proof. intros d s. induction l as [|[k a] r IH]; [reflexivity|]. cbn. rewrite IH. reflexivity. Qed.

Lemma required_by_default : forall fs fs' : dict (@field obj ty W), keys fs' = keys fs -> NoDup (keys fs) ->
  (forall k, match dget k fs, dget k fs' with Some f, Some f' => f_default f' = f_default f | None, None => True | _, _ => False end) ->
  required_keys fs' = required_keys fs.
Proof.
  intros fs fs' HK HN H. rewrite !required_keys_filter; [|exact HN|unfold dict_ok; rewrite HK; exact HN]. rewrite HK. apply filter_ext. intro k. specialize (H k).
  destruct (dget k fs), (dget k fs'); try tauto. unfold has_default. rewrite H. reflexivity.
Qed.

Lemma comparable_calls : forall h f g, comparable P h -> make_filler P SStrict h [] = Ok f -> make_filler P SCheck h [] = Ok g -> extends (call P f) (call P g).
Proof.
  intros h f g [(HU & HN)|(HR & HS & HS2 & HN & HL)] HF HG.
  - exact (lax_calls P h [] f g HU HN eq_refl HF HG).
  - exact (lax_tests P HR h [] [] f g HS HS2 HN HL HF HG).
Qed.

Lemma restyled_fields : forall d c c', d_prebind d = [] -> dict_ok (d_anns d) ->
  (forall k f, In (k, f) (flat_map base_fields (d_bases d)) -> f_owner f <> d_ty d) ->
  (forall k a, In (k, a) (d_anns d) -> is_field a = true -> comparable P (declared_hint a)) ->
  make_class P (restyled d SStrict) = Ok c -> make_class P (restyled d SCheck) = Ok c' ->
  accepts_more (c_fields c) (c_fields c') /\
  c' = Cls (c_ty c) (c_fields c') (c_field_dict c) (c_frozen c) (c_ordered c) (c_unary c) SCheck (c_parsers c) (c_post_new c).
Proof.
  intros d c c' HP HD HB HC HF HG.
  destruct (make_class_parts P _ _ HF) as (own & par & M). destruct (make_class_parts P _ _ HG) as (own' & par' & M').
  pose proof (mp_own _ _ _ _ _ M) as O1. pose proof (mp_own _ _ _ _ _ M') as O2. rewrite restyled_own in O1, O2. cbn in O1, O2. rewrite O1 in O2. injection O2 as <-.
  pose proof (mp_parents _ _ _ _ _ M) as P1. pose proof (mp_parents _ _ _ _ _ M') as P2. cbn in P1, P2. rewrite <- P1 in P2. subst par'.
  assert (NP : NoDup (keys (c_fields c))).
  { rewrite (mp_keys _ _ _ _ _ M). apply NoDup_join; [exact (mp_nodup _ _ _ _ _ M)| |exact (mp_disjoint _ _ _ _ _ M)].
    rewrite (own_fields_names P d own HD O1). exact (own_field_names_NoDup d HD). }
  assert (KK : keys (c_fields c') = keys (c_fields c)) by (rewrite (mp_keys _ _ _ _ _ M), (mp_keys _ _ _ _ _ M'); reflexivity).
  assert (G : forall k, match dget k (c_fields c), dget k (c_fields c') with
    | Some f, Some f' => f_default f' = f_default f /\ extends (call P (f_filler f)) (call P (f_filler f'))
    | None, None => True | _, _ => False end).
  { intro k. destruct (dget k (par ++ own)) as [f|] eqn:E.
    - destruct (mp_field _ _ _ _ _ M k f E) as (g & fl & G1 & S1 & A1 & B1 & B2). destruct (mp_field _ _ _ _ _ M' k f E) as (g' & fl' & G1' & S1' & A1' & B1' & B2').
      rewrite G1, G1'. cbn in A1, A1'. rewrite HP in A1, A1'. cbn in A1, A1'. injection A1 as <-. injection A1' as <-.
      split; [destruct S1 as (_ & -> & _), S1' as (_ & -> & _); reflexivity|].
      cbn in B1, B2, B1', B2'. destruct (ty_eqP P (f_owner f) (d_ty d)) as [EO|NO].
      + specialize (B1 EO). specialize (B1' EO). rewrite dget_app in E. destruct (dget k par) as [f0|] eqn:EP.
        * injection E as ->. destruct (HB k f); [|exact EO]. rewrite <- P1. apply dget_Some_In. exact EP.
        * destruct (own_fields_get P d _ _ _ _ O1 E) as (a & I & IS & _ & _ & _ & GF & _).
          apply own_hints_In in I; [|exact HD]. apply dget_Some_In in I. apply (comparable_calls (declared_hint a)); [apply (HC k a); assumption| |];
          unfold make_filler; rewrite GF; cbn [obind apply_ops]; assumption.
      + rewrite (B2 NO), (B2' NO). apply extends_refl.
    - assert (N : ~ In k (keys (c_fields c))).
      { rewrite (mp_keys _ _ _ _ _ M), <- keys_app. apply dget_None. exact E. }
      pose proof N as N'. rewrite <- KK in N'. apply dget_None in N. apply dget_None in N'. rewrite N, N'. exact I. }
  split.
  - split; [exact KK|]. split; [|exact G]. apply required_by_default; [exact KK|exact NP|]. intro k. specialize (G k). destruct (dget k (c_fields c)), (dget k (c_fields c')); tauto.
  - rewrite (mp_rest _ _ _ _ _ M') at 1. rewrite (mp_rest _ _ _ _ _ M). reflexivity.
Qed.
End Records.

Lemma c161_class_partial_proof : forall {obj ty W} (R : Rt obj ty W) n d c c' kw w x w',
  d_prebind d = [] -> dict_ok (d_anns d) ->
  (forall k f, In (k, f) (flat_map base_fields (d_bases d)) -> f_owner f <> d_ty d) ->
  (forall k a, In (k, a) (d_anns d) -> is_field a = true -> comparable (rt_py R) (declared_hint a)) ->
  make_class (rt_py R) (restyled d SStrict) = Ok c -> make_class (rt_py R) (restyled d SCheck) = Ok c' -> no_reserved kw ->
  construct R (S n) c None kw w = (Ok x, w') -> construct R (S n) c' None kw w = (Ok x, w').
Proof.
  intros obj ty W R n d c c' kw w x w' HP HD HB HC HF HG HR H.
  destruct (restyled_fields R d c c' HP HD HB HC HF HG) as (HM & ->). destruct c as [t fs fd fr o u s ps pn]. cbn [c_ty c_fields c_field_dict c_frozen c_ordered c_unary c_parsers c_post_new] in *.
  rewrite construct_plain in * by assumption. eapply more_build; [exact HM|exact H].
Qed.

Lemma c161_data_partial_proof : forall {obj ty W} (R : Rt obj ty W) n d c c',
  d_prebind d = [] -> dict_ok (d_anns d) ->
  (forall k f, In (k, f) (flat_map base_fields (d_bases d)) -> f_owner f <> d_ty d) ->
  (forall k a, In (k, a) (d_anns d) -> is_field a = true -> comparable (rt_py R) (declared_hint a)) ->
  make_class (rt_py R) (restyled d SStrict) = Ok c -> make_class (rt_py R) (restyled d SCheck) = Ok c' -> c_unary c = false ->
  (forall pos kw w x w', construct R (S n) c pos kw w = (Ok x, w') -> construct R (S n) c' pos kw w = (Ok x, w')) /\
  (forall s maps kw w x w', from_mapping R (S n) c s maps kw w = (Ok x, w') -> from_mapping R (S n) c' s maps kw w = (Ok x, w')) /\
  (forall s v w x w', from_json R (S n) c s v w = (Ok x, w') -> from_json R (S n) c' s v w = (Ok x, w')).
Proof.
  intros obj ty W R n d c c' HP HD HB HC HF HG HU.
  destruct (restyled_fields R d c c' HP HD HB HC HF HG) as (HM & ->). destruct c as [t fs fd fr o u s ps pn]. cbn [c_ty c_fields c_field_dict c_frozen c_ordered c_unary c_parsers c_post_new] in *. subst u.
  pose proof (fun pos => more_construct R t _ _ fd fr o s SCheck ps pn n pos HM) as K. split; [exact K|]. split.
  - intros sl maps kw w x w' E. unfold from_mapping, from_mapping_with, bind in *. destruct (chain_map R maps kw w) as [[dd|e] w1]; [|discriminate].
    destruct (lift (sel_apply sl dd) w1) as [[d'|e] w2]; [|discriminate]. apply K. exact E.
  - intros sl v w x w' E. unfold from_json, from_json_with, bind in *. destruct (json_loads R v w) as [[y|e] w1]; [|discriminate].
    match goal with |- (let (_, _) := ?m in _) = _ => destruct m as [[dd|e] w2] end; [|discriminate].
    destruct (lift (sel_apply sl dd) w2) as [[d'|e] w3]; [|discriminate]. apply K. exact E.
Qed.

Lemma c161_hollow_partial_proof : forall {obj ty W} (P : Py obj ty W) d h f g,
  checks d -> plain_containers P h -> has_coercer (hint_tokens h) = false -> forallb no_style (hint_tokens h) = true -> Forall testing (hint_tokens h) ->
  make_filler P d h [] = Ok f -> make_filler P SHollow h [] = Ok g ->
  forall x w y w', call P f x w = (Ok y, w') -> call P g x w = (Ok x, w).
Proof.
  intros obj ty W P d h f g HC HU HN HS HT HF HG. apply (hollow_calls P d h [] f g); auto; rewrite ?app_nil_r; auto.
Qed.

Lemma c161_coercer_refuted_proof : exists (P : Py dobj dty demo_state) h f g x y y' w,
  unionless P h /\ make_filler P SStrict h [] = Ok f /\ make_filler P SCheck h [] = Ok g /\
  call P f x w = (Ok y, w) /\ call P g x w = (Ok y', w) /\ y <> y'.
Proof.
  exists demo0, (HAnn (HTy TInt) [TCoerce (CGlobal (fun _ => Ok (fun x => match x with DBool true => ret (DInt 1) | _ => raise (mkexc ValueError "") end)))]).
  do 2 eexists. exists (DBool true), (DInt 1), (DBool true), st0.
  split; [exact I|]. split; [reflexivity|]. split; [reflexivity|]. split; [reflexivity|]. split; [reflexivity|discriminate].
Qed.

Lemma c161_union_refuted_proof : exists (P : Py dobj dty demo_state) a b f g x y w,
  unionless P a /\ unionless P b /\ has_coercer (hint_tokens (HUnion [a; b])) = false /\
  make_filler P SStrict (HUnion [a; b]) [] = Ok f /\ make_filler P SCheck (HUnion [a; b]) [] = Ok g /\
  call P f x w = (Ok x, w) /\ call P g x w = (Raise y, w) /\ exc_cls y = ValueError.
Proof.
  exists demo0, (HIter RkPlain TList (HAnn (HTy TInt) [TValid (VGlobal (fun _ => Ok (fun _ => ret (DInt 0))))])), (HIter RkPlain TList (HTy TBool)). do 2 eexists. exists (dlist [DBool true]). eexists. exists st0.
  split; [repeat split; discriminate|]. split; [repeat split; discriminate|]. split; [reflexivity|]. split; [reflexivity|]. split; [reflexivity|]. split; [reflexivity|]. split; reflexivity.
Qed.

Lemma c161_elements_refuted_proof : exists (P : Py dobj dty demo_state) h f g x y w,
  unionless P h /\ has_coercer (hint_tokens h) = false /\
  make_filler P SCheck h [] = Ok f /\ make_filler P SHollow h [] = Ok g /\
  call P f x w = (Ok y, w) /\ call P g x w = (Ok x, w) /\ y <> x.
Proof.
  exists demo0, (HIter RkPlain TList (HAnn (HTy TInt) [TValid (VGlobal (fun _ => Ok (fun x => match x with DInt z => ret (DInt (z + 1)) | _ => ret x end)))])).
  do 2 eexists. exists (dlist [DInt 1]), (dlist [DInt 2]), st0.
  split; [repeat split; discriminate|]. split; [reflexivity|]. split; [reflexivity|]. split; [reflexivity|]. split; [reflexivity|]. split; [reflexivity|discriminate].
Qed.
