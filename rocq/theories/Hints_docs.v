(** Hints_docs.v -- rewriting annotations: without doc strings, without NewTypes, with token
    classes called. *)
From Verif Require Import Base Py Filler Hints Spec_Filler Spec_State Spec_Typing Spec_Hints.
From Verif Require Import Filler_proofs Filler_eqs Hints_proofs.

Section Docs.
Context {obj ty W : Type} (P : Py obj ty W) (T : @Typing ty).
Notation typing := (@typing obj ty W).
Notation meta := (@meta obj ty W).
Notation token := (@token obj ty W).
Notation hint := (@hint obj ty W).
Notation filler := (@filler obj ty W).
Notation afiller := (@afiller obj ty W).
Notation callback := (@callback obj W).
Notation hint_of := (hint_of P T).

(** ** Two annotations of the same shape *)

Definition is_ellipsis (y : typing) : bool := match y with YEllipsis => true | _ => false end.

Inductive alias_rel (R : hint -> hint -> Prop) : hint -> hint -> Prop :=
| ar_bare t : alias_rel R (HBare t) (HBare t)
| ar_type b : alias_rel R (HType b) (HType b)
| ar_other : alias_rel R HOther HOther
| ar_tuple_v h h' : R h h' -> alias_rel R (HTupleV h) (HTupleV h')
| ar_tuple_n hs hs' : Forall2 R hs hs' -> alias_rel R (HTupleN hs) (HTupleN hs')
| ar_iter rk t h h' : R h h' -> alias_rel R (HIter rk t h) (HIter rk t h')
| ar_map rk t k k' v v' : R k k' -> R v v' -> alias_rel R (HMap rk t k v) (HMap rk t k' v')
| ar_gen t hs hs' : Forall2 R hs hs' -> alias_rel R (HGenN t hs) (HGenN t hs').

Lemma tuple_params : forall ps : list typing, (exists p, ps = [p; YEllipsis]) \/
  (forall A (f : typing -> A) (b : A), match ps with [p; YEllipsis] => f p | _ => b end = b).
Proof. intros [|p1 [|p2 [|p3 ps]]]; auto; destruct p2; auto. left. eauto. Qed.

Lemma alias_shape : forall (R : hint -> hint -> Prop) (r : typing -> typing) t ps,
  Forall (fun p => is_typevar (r p) = is_typevar p /\ is_ellipsis (r p) = is_ellipsis p /\ R (hint_of p) (hint_of (r p))) ps ->
  (t = t_type P -> has_args ps = true -> map r ps = ps) ->
  alias_rel R (hint_of (YAlias t ps)) (hint_of (YAlias t (map r ps))).
Proof.
  intros R r t ps HF HT. cbn [Hints.hint_of].
  assert (HA : has_args (map r ps) = has_args ps).
  { clear HT. unfold has_args. induction HF as [|p l (E & _) _ IH]; [reflexivity|]. cbn. rewrite E, IH. reflexivity. }
  assert (HR : Forall2 R (map hint_of ps) (map hint_of (map r ps))).
  { clear HT HA. induction HF as [|p l (_ & _ & E) _ IH]; constructor; auto. }
  rewrite HA. destruct (has_args ps); [|constructor]. destruct (ty_eqP P t (t_type P)) as [->|N].
  { rewrite HT by reflexivity. constructor. }
  destruct (gmap T t) as [[|rk|rk|]|]; try constructor; try assumption.
  - destruct (tuple_params ps) as [[p ->]|D].
    + cbn [map]. inversion HF as [|? ? (_ & _ & E1) HF']; subst. inversion HF' as [|? ? (_ & E2 & _) _]; subst.
      destruct (r YEllipsis) eqn:RE; try discriminate. constructor. assumption.
    + rewrite (D _ (fun p => HTupleV (hint_of p))).
      replace (match map r ps with [p; YEllipsis] => HTupleV (hint_of p) | _ => HTupleN (map hint_of (map r ps)) end) with (@HTupleN obj ty W (map hint_of (map r ps))); [constructor; assumption|].
      destruct ps as [|p1 [|p2 [|p3 ps]]]; try reflexivity; cbn; [|destruct (r p2); reflexivity].
      specialize (D bool (fun _ => true) false). cbn in D. inversion HF as [|? ? _ HF']; subst. inversion HF' as [|? ? (_ & E2 & _) _]; subst.
      destruct (r p2); try reflexivity. destruct p2; discriminate.
  - destruct ps as [|p pr]; [constructor|]. cbn. inversion HF as [|? ? (_ & _ & E1) _]; subst. constructor. assumption.
  - destruct ps as [|p1 [|p2 [|p3 ps]]]; try constructor; inversion HF as [|? ? (_ & _ & E1) HF']; subst; try assumption.
    inversion HF' as [|? ? (_ & _ & E2) _]; subst. assumption.
Qed.

(** ** Calling token classes *)

Lemma called_kind : forall y : typing, is_typevar (called y) = is_typevar y /\ is_ellipsis (called y) = is_ellipsis y.
Proof. intros []; split; reflexivity. Qed.

Lemma Forall_mp : forall {A} (p q : A -> Prop) l, Forall (fun a => p a -> q a) l -> Forall p l -> Forall q l.
Proof. induction 1; intros HP; inversion HP; subst; constructor; auto. Qed.

Lemma called_same : forall y, types_of_classes P y -> no_validator_factories y -> hint_of (called y) = hint_of y.
Proof.
  induction y as [t| | | | | | |y IH|ys IH|l vs|t ps IH|y ms IH] using typing_ind'; intros HT HN; try reflexivity.
  - cbn. rewrite IH; [reflexivity|apply HT|apply HN].
  - apply every_union in HT as [_ HT]. apply every_union in HN as [_ HN]. cbn. f_equal. rewrite map_map. apply map_ext_in.
    rewrite Forall_forall in *. intros y I. apply IH; auto; [apply HT|apply HN]; assumption.
  - apply every_alias in HT as [HC HT]. apply every_alias in HN as [_ HN]. cbn [called].
    assert (A : alias_rel eq (hint_of (YAlias t ps)) (hint_of (YAlias t (map called ps)))).
    { apply alias_shape.
      - apply Forall_forall. intros p I. rewrite Forall_forall in IH, HT, HN. destruct (called_kind p). split; [assumption|]. split; [assumption|].
        symmetry. apply IH; auto; [apply HT|apply HN]; assumption.
      - intros E1 E2. destruct (HC E1 E2) as [b ->]. reflexivity. }
    assert (FE : forall hs hs' : list hint, Forall2 eq hs hs' -> hs = hs') by (induction 1; congruence).
    revert A. generalize (hint_of (YAlias t (map called ps))) (hint_of (YAlias t ps)). intros h1 h2 A.
    destruct A; try reflexivity; try congruence; f_equal; symmetry; apply FE; assumption.
  - destruct HN as [N1 N2]. cbn. rewrite IH; [|apply HT|apply N2]. f_equal. rewrite map_map. apply map_ext_in. intros m I.
    rewrite Forall_forall in N1. specialize (N1 m I). destruct m as [| |[c|e]| |[v|e]|[[|c|v|g|]|e]|]; try reflexivity. destruct (N1 v). reflexivity.
Qed.

(** ** NewTypes *)

Lemma expand_kind : forall y : typing, tidy y -> is_typevar (expand y) = is_typevar y /\ is_ellipsis (expand y) = is_ellipsis y.
Proof.
  induction y as [t| | | | | | |y IH|ys IH|l vs|t ps IH|y ms IH] using typing_ind'; intros HT; try (split; reflexivity).
  destruct HT as [HT1 HT2]. destruct (IH HT2) as [E1 E2]. cbn. rewrite E1, E2. destruct y; split; try reflexivity; contradiction.
Qed.

Lemma gaf_newtype : forall own y, (match y with YAnn _ _ => False | _ => True end) ->
  gaf P own (hint_of (YNewType y)) = gaf P own (hint_of y).
Proof.
  intros own y H. cbn [Hints.hint_of gaf]. destruct (newtype_cases P T y) as [(y' & ms & ->)|[_ N]]; [contradiction|]. apply N.
Qed.

Lemma mapO_ext : forall {A B} (f : A -> outcome B) l l', Forall2 (fun a a' => f a = f a') l l' -> mapO f l = mapO f l'.
Proof. intros A B f l l' H. induction H as [|a a' l l' E _ IH]; [reflexivity|]. cbn. rewrite E, IH. reflexivity. Qed.

Lemma expand_same : forall y, types_of_classes P y -> tidy y -> forall own, gaf P own (hint_of (expand y)) = gaf P own (hint_of y).
Proof.
  induction y as [t| | | | | | |y IH|ys IH|l vs|t ps IH|y ms IH] using typing_ind'; intros HC HT own; try reflexivity.
  - rewrite gaf_newtype; [|destruct HT as [HT _]; destruct y; auto]. apply IH; [apply HC|apply HT].
  - apply every_union in HC as [_ HC]. apply every_union in HT as [_ HT]. cbn [expand Hints.hint_of gaf].
    rewrite (mapO_ext (gaf P []) (map hint_of (map expand ys)) (map hint_of ys)); [reflexivity|].
    clear own. induction IH as [|y r IHy _ IHr]; [constructor|]. inversion HC; subst. inversion HT; subst. constructor; auto.
  - apply every_alias in HC as [HC0 HC]. apply every_alias in HT as [_ HT]. cbn [expand].
    assert (A : alias_rel (fun h h' => forall own, gaf P own h' = gaf P own h) (hint_of (YAlias t ps)) (hint_of (YAlias t (map expand ps)))).
    { apply alias_shape.
      - apply Forall_forall. intros p I. rewrite Forall_forall in IH, HC, HT. destruct (expand_kind p (HT p I)). split; [assumption|]. split; [assumption|].
        apply IH; auto; [apply HC|apply HT]; assumption.
      - intros E1 E2. destruct (HC0 E1 E2) as [b ->]. reflexivity. }
    assert (ML : forall hs hs' : list hint, Forall2 (fun h h' => forall own, gaf P own h' = gaf P own h) hs hs' -> mapO (gaf P []) hs' = mapO (gaf P []) hs).
    { intros hs hs' F. symmetry. apply mapO_ext. induction F; constructor; auto. }
    revert A. generalize (hint_of (YAlias t (map expand ps))) (hint_of (YAlias t ps)). intros h1 h2 A.
    destruct A as [| | |h h' R1|hs hs' R1|rk t0 h h' R1|rk t0 k k' v v' R1 R2|t0 hs hs' R1]; cbn [gaf]; try reflexivity;
      try rewrite (ML _ _ R1); try rewrite R1; try rewrite R2; reflexivity.
  - cbn [expand Hints.hint_of gaf]. apply IH; [apply HC|apply HT].
Qed.

(** ** Doc strings *)

(** [drops ts us]: [us] are the tokens [ts] without some of those that mean nothing *)
Inductive drops : list token -> list token -> Prop :=
| drops_nil : drops [] []
| drops_keep t ts us : drops ts us -> drops (t :: ts) (t :: us)
| drops_drop ts us : drops ts us -> drops (TOther :: ts) us.
Hint Constructors drops : core.

Lemma drops_app : forall a b c d, drops a b -> drops c d -> drops (a ++ c) (b ++ d).
Proof. intros a b c d H1 H2. induction H1; cbn; auto. Qed.
Lemma drops_metas : forall ms : list meta, drops (map (@meta_token obj ty W) ms) (map (@meta_token obj ty W) (filter (fun m => negb (is_other m)) ms)).
Proof. induction ms as [|m r IH]; [constructor|]. destruct m as [|?|?|?|?|[[]|]|]; cbn; auto. Qed.

Variable dflt : style.

(** a leaf's filler, bound *)
Definition leaf (k : @akind obj ty) (own pre : list token) : outcome afiller :=
  do a1 <- aapplys P (mk_afiller k own) pre; abind P dflt a1.

Definition like (a b : afiller) : Prop :=
  a_kind a = a_kind b /\ a_style a = a_style b /\ a_coercers a = a_coercers b /\ a_validators a = a_validators b /\ a_bound a = a_bound b.

Lemma aapply_like : forall a b t a', like a b -> aapply P a t = Ok a' -> exists b', aapply P b t = Ok b' /\ like a' b' /\ a_args a' = a_args a /\ a_args b' = a_args b.
Proof.
  intros [k1 r1 s1 c1 v1 b1] [k2 r2 s2 c2 v2 b2] t a' (E1 & E2 & E3 & E4 & E5) H. cbn in *. subst. unfold aapply in *. cbn in *.
  destruct b2; [discriminate|]. destruct t as [s|c|v|].
  - injection H as <-. eexists. split; [reflexivity|]. repeat split.
  - destruct (get_coercer P k2 c) as [f|e]; [|discriminate]. injection H as <-. eexists. split; [reflexivity|]. repeat split.
  - destruct (get_validator P k2 v) as [f|e]; [|discriminate]. injection H as <-. eexists. split; [reflexivity|]. repeat split.
  - injection H as <-. eexists. split; [reflexivity|]. repeat split.
Qed.

Lemma aapply_unbound : forall a t a', aapply P a t = Ok a' -> a_bound a' = false.
Proof.
  intros [k r s c v b] t a' H. unfold aapply in H. cbn in H. destruct b; [discriminate|]. destruct t as [s0|c0|v0|]; try (injection H as <-; reflexivity).
  - destruct (get_coercer P k c0); [|discriminate]. injection H as <-. reflexivity.
  - destruct (get_validator P k v0); [|discriminate]. injection H as <-. reflexivity.
Qed.

Lemma like_sym : forall a b, like a b -> like b a.
Proof. intros a b (?&?&?&?&?). repeat split; auto. Qed.

Lemma aapplys_like : forall ts us, drops ts us -> forall a b, a_bound a = false -> like a b ->
  (forall a', aapplys P a ts = Ok a' -> exists b', aapplys P b us = Ok b' /\ like a' b' /\ a_args a' = a_args a /\ a_args b' = a_args b /\ a_bound a' = false) /\
  (forall b', aapplys P b us = Ok b' -> exists a', aapplys P a ts = Ok a').
Proof.
  intros ts us H. induction H as [|t ts us _ IH|ts us _ IH]; intros a b B L.
  - split; intros x E; injection E as <-; [exists b; repeat split; try apply L; assumption|exists a; reflexivity].
  - split; intros x E; cbn in *; oinv E.
    + destruct (aapply_like _ _ _ _ L Ea) as (b1 & EB & L1 & A1 & A2). rewrite EB. cbn.
      destruct (IH _ _ (aapply_unbound _ _ _ Ea) L1) as [F _]. destruct (F _ E) as (b' & E' & L' & A1' & A2' & U). exists b'. repeat split; try apply L'; congruence.
    + destruct (aapply_like _ _ _ _ (like_sym _ _ L) Ea) as (b1 & EB & L1 & A1 & A2). rewrite EB. cbn.
      destruct (IH _ _ (aapply_unbound _ _ _ EB) (like_sym _ _ L1)) as [_ F]. apply F in E. exact E.
  - assert (E0 : aapply P a TOther = Ok a) by (unfold aapply; rewrite B; reflexivity). cbn [aapplys]. rewrite E0. cbn [obind]. apply IH; assumption.
Qed.

Lemma leaf_like : forall k own own' pre pre', drops own own' -> drops pre pre' ->
  (forall a, leaf k own pre = Ok a -> exists b, leaf k own' pre' = Ok b /\ like a b) /\
  (forall b, leaf k own' pre' = Ok b -> exists a, leaf k own pre = Ok a).
Proof.
  intros k own own' pre pre' D1 D2. unfold leaf.
  assert (L0 : like (mk_afiller k own) (mk_afiller k own')) by (repeat split).
  destruct (aapplys_like _ _ D2 _ _ (eq_refl : a_bound (mk_afiller k own) = false) L0) as [F1 F2].
  assert (G : forall a b, like a b -> a_args a = own -> a_args b = own' -> a_bound a = false ->
    (forall a', abind P dflt a = Ok a' -> exists b', abind P dflt b = Ok b' /\ like a' b') /\ (forall b', abind P dflt b = Ok b' -> exists a', abind P dflt a = Ok a')).
  { intros a b L A1 A2 U. unfold abind. rewrite A1, A2. destruct (aapplys_like _ _ D1 _ _ U L) as [G1 G2].
    destruct (aapplys P a own) as [a1|e] eqn:E1.
    - destruct (G1 a1 eq_refl) as (b1 & -> & (K1 & K2 & K3 & K4 & K5) & _). cbn [obind]. rewrite <- K1, <- K2, <- K3, <- K4, <- K5.
      destruct (a_bound a1); [split; intros ? ?; discriminate|].
      destruct (style_eqb _ SHollow && _); [split; intros ? ?; discriminate|]. cbn [a_kind].
      destruct (a_kind a1); try (destruct (style_eqb _ SStrict && _); [split; intros ? ?; discriminate|]; split; [intros x [= <-]; eexists; split; [reflexivity|repeat split]|intros x _; eauto]).
      split; [intros x [= <-]; eexists; split; [reflexivity|]|intros x _; eauto]. unfold ahollow. cbn. destruct (style_eqb _ SHollow); repeat split.
    - cbn. split; [intros ? ?; discriminate|]. intros b' H. oinv H. destruct (G2 _ Ha) as [a' E]. congruence. }
  split.
  - intros a H. oinv H. destruct (F1 _ Ha) as (b1 & -> & L1 & A1 & A2 & U). cbn [obind]. destruct (G _ _ L1 A1 A2 U) as [G1 _]. apply G1. assumption.
  - intros b H. oinv H. destruct (F2 _ Ha) as (a1 & E). rewrite E. cbn [obind]. destruct (F1 _ E) as (b1 & E1 & L1 & A1 & A2 & U).
    assert (b1 = a) by congruence. subst b1. destruct (G _ _ L1 A1 A2 U) as [_ G2]. eapply G2. eassumption.
Qed.

(** fillers that do the same *)
Definition ext (f g : filler) : Prop := is_hollow f = is_hollow g /\ forall v w, fill P f v w = fill P g v w.

Definition cb_ext (c d : callback) : Prop := forall v w, c v w = d v w.

Lemma call_ext : forall f g, ext f g -> cb_ext (call P f) (call P g).
Proof. intros f g [_ E] v w. rewrite !call_eq. unfold bind. rewrite E. reflexivity. Qed.

Lemma run_validators_ext : forall vs us, Forall2 cb_ext vs us -> cb_ext (run_validators vs) (run_validators us).
Proof.
  intros vs us H. induction H as [|c d vs us E _ IH]; intros v w; [reflexivity|]. cbn. unfold bind. rewrite E.
  destruct (d v w) as [[y|e] w1]; [apply IH|reflexivity].
Qed.

Lemma afill_ext : forall a b, a_kind a = a_kind b -> a_style a = a_style b -> a_coercers a = a_coercers b -> Forall2 cb_ext (a_validators a) (a_validators b) ->
  forall v w, afill P a v w = afill P b v w.
Proof.
  intros a b E1 E2 E3 E4 v w. unfold afill. rewrite E1, E2, E3. unfold bind at 1 3.
  destruct (type_phase P (a_kind b) (a_style b) (a_coercers b) v w) as [[p|e] w1]; [|reflexivity]. unfold bind. rewrite (run_validators_ext _ _ E4). reflexivity.
Qed.

Lemma cb_refl : forall vs : list callback, Forall2 cb_ext vs vs.
Proof. induction vs; constructor; [intros v w; reflexivity|assumption]. Qed.

Lemma like_fill : forall a b, like a b -> forall v w, afill P a v w = afill P b v w.
Proof. intros a b (E1 & E2 & E3 & E4 & _). apply afill_ext; auto. rewrite E4. apply cb_refl. Qed.

Lemma like_hollow : forall a b, like a b -> ahollow a = ahollow b.
Proof. intros a b (_ & E & _). unfold ahollow. rewrite E. reflexivity. Qed.

Lemma like_add_fill : forall a b c d, like a b -> cb_ext c d -> forall v w, afill P (add_validator a c) v w = afill P (add_validator b d) v w.
Proof.
  intros a b c d (E1 & E2 & E3 & E4 & _) E. apply afill_ext; cbn; auto. rewrite E4. apply Forall2_app; [apply cb_refl|]. constructor; [exact E|constructor].
Qed.
Lemma like_add : forall a b c, like a b -> like (add_validator a c) (add_validator b c).
Proof. intros a b c (E1 & E2 & E3 & E4 & E5). repeat split; cbn; congruence. Qed.

Lemma iter_ext : forall rk c d, cb_ext c d -> cb_ext (iter_validator P rk c) (iter_validator P rk d).
Proof.
  intros rk c d E v w. unfold iter_validator. destruct (elems P v) as [l|]; [|reflexivity].
  assert (M : forall l w, mapM c l w = mapM d l w).
  { induction l0 as [|x r IH]; intros w0; [reflexivity|]. cbn. unfold bind. rewrite E. destruct (d x w0) as [[y|e] w1]; [|reflexivity]. rewrite IH. reflexivity. }
  generalize (@nil obj). revert w. induction l as [|x r IH]; intros w dn; [reflexivity|]. cbn. unfold bind. rewrite E.
  destruct (d x w) as [[y|e] w1]; [|reflexivity]. destruct (py_is P y x); [apply IH|]. rewrite M. reflexivity.
Qed.

Lemma map_validator_ext : forall rk c d c' d', cb_ext c d -> cb_ext c' d' -> cb_ext (map_validator P rk c c') (map_validator P rk d d').
Proof.
  intros rk c d c' d' E E' v w. unfold map_validator. destruct (items P v) as [l|]; [|reflexivity].
  assert (M : forall l w, mapM (fill_pair c c') l w = mapM (fill_pair d d') l w).
  { induction l0 as [|[x z] r IH]; intros w0; [reflexivity|]. cbn. unfold fill_pair at 1 3, bind. cbn. rewrite E. destruct (d x w0) as [[y|e] w1]; [|reflexivity].
    rewrite E'. destruct (d' z w1) as [[u|e] w2]; [|reflexivity]. cbn. rewrite IH. reflexivity. }
  unfold bind. rewrite M. reflexivity.
Qed.

Lemma tuple_ext : forall cs ds, Forall2 cb_ext cs ds -> cb_ext (tuple_validator P cs) (tuple_validator P ds).
Proof.
  intros cs ds F v w. unfold tuple_validator. destruct (elems P v) as [l|]; [|reflexivity].
  assert (Z : forall cs ds, Forall2 cb_ext cs ds -> forall l w, fill_zip cs l w = fill_zip ds l w).
  { clear. intros cs ds F. induction F as [|c d cs ds E _ IH]; intros [|x r] w; try reflexivity. cbn. unfold bind. rewrite E.
    destruct (d x w) as [[y|e] w1]; [|reflexivity]. rewrite IH. reflexivity. }
  generalize (@nil obj). revert l w. induction F as [|c d cs ds E F IH]; intros [|x r] w dn; try reflexivity. cbn. unfold bind. rewrite E.
  destruct (d x w) as [[y|e] w1]; [|reflexivity]. destruct (py_is P y x); [apply IH|]. rewrite (Z _ _ F). reflexivity.
Qed.

Definition made (own pre : list token) (h : hint) : outcome filler := do f <- gaf P own h; bind_with P dflt pre f.

Definition Sim (h h' : hint) : Prop := forall own own' pre pre', drops own own' -> drops pre pre' ->
  (forall f, made own pre h = Ok f -> exists g, made own' pre' h' = Ok g /\ ext f g) /\
  (dflt <> SHollow -> forall g, made own' pre' h' = Ok g -> exists f, made own pre h = Ok f).

Lemma ext_sym : forall f g, ext f g -> ext g f.
Proof. intros f g [E1 E2]. split; [symmetry; assumption|]. intros v w. symmetry. apply E2. Qed.

(** a container around one filler, two or many *)
Definition wrap_tuple_v (a : afiller) (s : filler) : outcome filler :=
  if is_hollow s then Ok (FTupleV true a s) else if ahollow a then Raise hollow_container
  else Ok (FTupleV true (add_validator a (iter_validator P RkPlain (call P s))) s).
Definition wrap_iter rk (a : afiller) (s : filler) : outcome filler :=
  if is_hollow s then Ok (FIter rk true a s) else if ahollow a then Raise hollow_container
  else Ok (FIter rk true (add_validator a (iter_validator P rk (call P s))) s).
Definition wrap_map rk (a : afiller) (s x : filler) : outcome filler :=
  if is_hollow s && is_hollow x then Ok (FMap rk true a s x) else if ahollow a then Raise hollow_container
  else Ok (FMap rk true (add_validator a (map_validator P rk (call P s) (call P x))) s x).
Definition wrap_tuple_n (a : afiller) (ss : list filler) : outcome filler :=
  let a3 := if ahollow a then a else add_validator a (len_validator P (List.length ss)) in
  if forallb is_hollow ss then Ok (FTupleN true a3 ss) else if ahollow a3 then Raise hollow_container
  else Ok (FTupleN true (add_validator a3 (tuple_validator P (map (call P) ss))) ss).
Definition wrap_gen (a : afiller) (ss : list filler) : outcome filler :=
  if forallb is_hollow ss then Ok (FGenN true a ss) else Raise hollow_container.

Ltac crush := repeat match goal with
  | H : obind ?x _ = Ok _ |- _ => let E := fresh "E" in let a := fresh "a" in apply obind_Ok in H; destruct H as (a & E & H)
  | H : exists _, _ |- _ => destruct H
  | H : _ /\ _ |- _ => destruct H
  | H : Ok _ = Ok _ |- _ => injection H as H; subst
  end.
Ltac rw := repeat (match goal with H : ?x = Ok _ |- context [?x] => rewrite H end); cbn [obind].

Lemma made_tuple_v : forall own pre h f, made own pre (HTupleV h) = Ok f <->
  exists a s, leaf (KSimple (t_tuple P)) own pre = Ok a /\ made [] [] h = Ok s /\ wrap_tuple_v a s = Ok f.
Proof.
  intros own pre h f. unfold made, leaf, wrap_tuple_v. cbn [gaf]. split.
  - intros H. crush. cbn [bind_with] in H. crush. do 3 rw. eauto 8.
  - intros H. crush. do 3 rw. cbn [bind_with]. do 5 rw. first [assumption | reflexivity].
Qed.

Lemma made_iter : forall own pre rk t h f, made own pre (HIter rk t h) = Ok f <->
  exists a s, leaf (KSimple t) own pre = Ok a /\ made [] [] h = Ok s /\ wrap_iter rk a s = Ok f.
Proof.
  intros own pre rk t h f. unfold made, leaf, wrap_iter. cbn [gaf]. split.
  - intros H. crush. cbn [bind_with] in H. crush. do 3 rw. eauto 8.
  - intros H. crush. do 3 rw. cbn [bind_with]. do 5 rw. first [assumption | reflexivity].
Qed.

Lemma made_map : forall own pre rk t hk hv f, made own pre (HMap rk t hk hv) = Ok f <->
  exists a s x, leaf (KSimple t) own pre = Ok a /\ made [] [] hk = Ok s /\ made [] [] hv = Ok x /\ wrap_map rk a s x = Ok f.
Proof.
  intros own pre rk t hk hv f. unfold made, leaf, wrap_map. cbn [gaf]. split.
  - intros H. crush. cbn [bind_with] in H. crush. do 3 rw. eauto 8.
  - intros H. crush. do 3 rw. cbn [bind_with]. do 5 rw. first [assumption | reflexivity].
Qed.

Lemma Forall2_len : forall {A B} (R : A -> B -> Prop) l m, Forall2 R l m -> List.length l = List.length m.
Proof. induction 1; cbn; congruence. Qed.

Lemma mapO_comp : forall {A B C} (f : A -> outcome B) (g : B -> outcome C) l r,
  (exists m, mapO f l = Ok m /\ mapO g m = Ok r) <-> mapO (fun a => do b <- f a; g b) l = Ok r.
Proof.
  intros A B C f g. induction l as [|a l IH]; intros r; cbn.
  - split; [intros (m & [= <-] & H); exact H|]. intros H. exists []. auto.
  - destruct (f a) as [b|e]; cbn; [|split; [intros (m & [=] & _)|discriminate]]. split.
    + intros (m & H1 & H2). destruct (mapO f l) as [m'|e]; [|discriminate]. cbn in H1. injection H1 as <-. cbn in H2.
      destruct (g b) as [c|e]; [|discriminate]. cbn in *. destruct (mapO g m') as [r'|e] eqn:E; [|discriminate]. injection H2 as <-.
      rewrite (proj1 (IH r') (ex_intro _ m' (conj eq_refl E))). reflexivity.
    + intros H. destruct (g b) as [c|e] eqn:E; [|discriminate]. cbn in H. destruct (mapO (fun a0 => do b0 <- f a0; g b0) l) as [r'|e] eqn:E'; [|discriminate].
      injection H as <-. destruct (proj2 (IH r') eq_refl) as (m & -> & H2). exists (b :: m). cbn. rewrite E. cbn. rewrite H2. auto.
Qed.

Lemma made_tuple_n : forall own pre hs f, made own pre (HTupleN hs) = Ok f <->
  exists a ss, leaf (KSimple (t_tuple P)) own pre = Ok a /\ mapO (made [] []) hs = Ok ss /\ wrap_tuple_n a ss = Ok f.
Proof.
  intros own pre hs f. unfold made at 1, leaf, wrap_tuple_n. cbn [gaf]. unfold made. split.
  - intros H. destruct (mapO (gaf P []) hs) as [ms|] eqn:E1; [|discriminate]. cbn [obind bind_with] in H.
    destruct (aapplys P _ pre) as [a0|]; [|discriminate]. cbn [obind] in *. destruct (abind P dflt a0) as [a1|]; [|discriminate]. cbn [obind] in *.
    destruct (mapO (bind_with P dflt []) ms) as [ss|] eqn:E2; [|discriminate]. cbn [obind] in *.
    exists a1, ss. split; [reflexivity|]. split; [apply mapO_comp; eauto|]. rewrite <- H.
    replace (List.length ss) with (List.length ms); [reflexivity|]. apply mapO_Forall2 in E2. eapply Forall2_len. eassumption.
  - intros (a & ss & H & H0 & H1). apply mapO_comp in H0 as (m & H0 & H2). rewrite H0. cbn [obind bind_with] in *. destruct (aapplys P _ pre) as [a0|]; [|discriminate].
    cbn [obind] in *. rewrite H, H2. cbn [obind]. replace (List.length m) with (List.length ss); [assumption|].
    apply mapO_Forall2 in H2. symmetry. eapply Forall2_len. eassumption.
Qed.

Lemma hollow_subs : forall (m : list filler) e r,
  mapO (fun s => do s' <- bind_with P dflt [] s; if is_hollow s' then Ok s' else Raise e) m = Ok r <->
  mapO (bind_with P dflt []) m = Ok r /\ forallb is_hollow r = true.
Proof.
  induction m as [|f m IH]; intros e r; cbn.
  - split; [intros [= <-]; auto|]. intros [H _]. exact H.
  - destruct (bind_with P dflt [] f) as [f0|e0]; cbn; [|split; [discriminate|intros [[=] _]]]. specialize (IH e). split.
    + intros H. destruct (is_hollow f0) eqn:HH; [|discriminate]. cbn in H. destruct (mapO _ m) as [r'|]; [|discriminate]. injection H as <-.
      destruct (proj1 (IH r') eq_refl) as [-> E2]. cbn. rewrite HH, E2. auto.
    + intros [H F]. destruct (mapO (bind_with P dflt []) m) as [r'|] eqn:E; [|discriminate]. cbn in H. injection H as <-. cbn in F. apply andb_true_iff in F as [F1 F2]. rewrite F1. cbn.
      rewrite (proj2 (IH r')); auto.
Qed.

Lemma made_gen : forall own pre t hs f, made own pre (HGenN t hs) = Ok f <->
  exists a ss, leaf (KSimple t) own pre = Ok a /\ mapO (made [] []) hs = Ok ss /\ wrap_gen a ss = Ok f.
Proof.
  intros own pre t hs f. unfold made at 1, leaf, wrap_gen. cbn [gaf]. unfold made. split.
  - intros H. destruct (mapO (gaf P []) hs) as [ms|] eqn:E1; [|discriminate]. cbn [obind bind_with] in H.
    destruct (aapplys P _ pre) as [a0|]; [|discriminate]. cbn [obind] in *. destruct (abind P dflt a0) as [a1|]; [|discriminate]. cbn [obind] in *.
    destruct (mapO _ ms) as [ss|] eqn:E2; [|discriminate]. cbn [obind] in *. apply hollow_subs in E2 as [E2 E4].
    exists a1, ss. split; [reflexivity|]. split; [apply mapO_comp; eauto|]. rewrite E4. assumption.
  - intros (a & ss & H & H0 & H1). destruct (forallb is_hollow ss) eqn:HH; [|discriminate]. apply mapO_comp in H0 as (m & H0 & H2). rewrite H0. cbn [obind bind_with] in *.
    destruct (aapplys P _ pre) as [a0|]; [|discriminate]. cbn [obind] in *. rewrite H. cbn [obind].
    rewrite (proj2 (hollow_subs _ _ _) (conj H2 HH)). assumption.
Qed.

Lemma made_union : forall own pre hs f, made own pre (HUnion hs) = Ok f <->
  exists ss, mapO (made [] (own ++ pre)) hs = Ok ss /\ f = FUnion own pre ss true.
Proof.
  intros own pre hs f. unfold made at 1. cbn [gaf]. unfold made. split.
  - intros H. destruct (mapO (gaf P []) hs) as [ms|] eqn:E1; [|discriminate]. cbn [obind bind_with app] in H.
    destruct (mapO (bind_with P dflt (own ++ pre)) ms) as [ss|] eqn:E2; [|discriminate]. injection H as <-.
    exists ss. split; [apply mapO_comp; eauto|reflexivity].
  - intros (ss & H & ->). apply mapO_comp in H as (m & -> & H). cbn [obind bind_with app]. rewrite H. reflexivity.
Qed.

(** containers around fillers that do the same do the same *)
Lemma ext_leafs : forall f g a b, is_hollow f = ahollow a -> is_hollow g = ahollow b ->
  fill P f = afill P a -> fill P g = afill P b -> like a b -> ext f g.
Proof. intros f g a b H1 H2 F1 F2 L. split; [rewrite H1, H2; apply like_hollow; assumption|]. rewrite F1, F2. apply like_fill. assumption. Qed.

Lemma ext_adds : forall f g a b c d, like a b -> cb_ext c d -> is_hollow f = ahollow a -> is_hollow g = ahollow b ->
  fill P f = afill P (add_validator a c) -> fill P g = afill P (add_validator b d) -> ext f g.
Proof. intros f g a b c d L E H1 H2 F1 F2. split; [rewrite H1, H2; apply like_hollow; assumption|]. rewrite F1, F2. apply like_add_fill; assumption. Qed.

Lemma wrap_tuple_v_ext : forall a b s x f, like a b -> ext s x -> wrap_tuple_v a s = Ok f -> exists g, wrap_tuple_v b x = Ok g /\ ext f g.
Proof.
  intros a b s x f L E H. unfold wrap_tuple_v in *. rewrite <- (proj1 E), <- (like_hollow _ _ L). destruct (is_hollow s).
  - injection H as <-. eexists. split; [reflexivity|]. eapply ext_leafs; try reflexivity. assumption.
  - destruct (ahollow a); [discriminate|]. injection H as <-. eexists. split; [reflexivity|]. eapply ext_adds; [eassumption| |reflexivity..].
    apply iter_ext, call_ext. assumption.
Qed.

Lemma wrap_iter_ext : forall rk a b s x f, like a b -> ext s x -> wrap_iter rk a s = Ok f -> exists g, wrap_iter rk b x = Ok g /\ ext f g.
Proof.
  intros rk a b s x f L E H. unfold wrap_iter in *. rewrite <- (proj1 E), <- (like_hollow _ _ L). destruct (is_hollow s).
  - injection H as <-. eexists. split; [reflexivity|]. eapply ext_leafs; try reflexivity. assumption.
  - destruct (ahollow a); [discriminate|]. injection H as <-. eexists. split; [reflexivity|]. eapply ext_adds; [eassumption| |reflexivity..].
    apply iter_ext, call_ext. assumption.
Qed.

Lemma wrap_map_ext : forall rk a b s x s' x' f, like a b -> ext s s' -> ext x x' -> wrap_map rk a s x = Ok f -> exists g, wrap_map rk b s' x' = Ok g /\ ext f g.
Proof.
  intros rk a b s x s' x' f L E1 E2 H. unfold wrap_map in *. rewrite <- (proj1 E1), <- (proj1 E2), <- (like_hollow _ _ L). destruct (is_hollow s && is_hollow x).
  - injection H as <-. eexists. split; [reflexivity|]. eapply ext_leafs; try reflexivity. assumption.
  - destruct (ahollow a); [discriminate|]. injection H as <-. eexists. split; [reflexivity|]. eapply ext_adds; [eassumption| |reflexivity..].
    apply map_validator_ext; apply call_ext; assumption.
Qed.

Lemma all_hollow_ext : forall ss xs, Forall2 ext ss xs -> forallb is_hollow ss = forallb is_hollow xs.
Proof. intros ss xs F. induction F as [|s x ss xs [E _] _ IH]; [reflexivity|]. cbn. rewrite E, IH. reflexivity. Qed.

Lemma wrap_tuple_n_ext : forall a b ss xs f, like a b -> Forall2 ext ss xs -> wrap_tuple_n a ss = Ok f -> exists g, wrap_tuple_n b xs = Ok g /\ ext f g.
Proof.
  intros a b ss xs f L E H. unfold wrap_tuple_n in *. cbv zeta in *. rewrite <- (all_hollow_ext _ _ E).
  pose proof (Forall2_len _ _ _ E) as EL.
  assert (L3 : like (if ahollow a then a else add_validator a (len_validator P (List.length ss))) (if ahollow b then b else add_validator b (len_validator P (List.length xs)))).
  { rewrite <- (like_hollow _ _ L), <- EL. destruct (ahollow a); [assumption|]. apply like_add. assumption. }
  rewrite <- (like_hollow _ _ L3). destruct (forallb is_hollow ss).
  - injection H as <-. eexists. split; [reflexivity|]. eapply ext_leafs; try reflexivity. assumption.
  - destruct (ahollow (if ahollow a then _ else _)); [discriminate|]. injection H as <-. eexists. split; [reflexivity|]. eapply ext_adds; [eassumption| |reflexivity..].
    apply tuple_ext. clear - E. induction E; cbn; constructor; [apply call_ext|]; assumption.
Qed.

Lemma wrap_gen_ext : forall a b ss xs f, like a b -> Forall2 ext ss xs -> wrap_gen a ss = Ok f -> exists g, wrap_gen b xs = Ok g /\ ext f g.
Proof.
  intros a b ss xs f L E H. unfold wrap_gen in *. rewrite <- (all_hollow_ext _ _ E). destruct (forallb is_hollow ss); [|discriminate].
  injection H as <-. eexists. split; [reflexivity|]. eapply ext_leafs; try reflexivity. assumption.
Qed.

Lemma union_loop_ext : forall ss xs, Forall2 ext ss xs -> forall v best key w,
  union_loop (map (fill P) ss) v best key w = union_loop (map (fill P) xs) v best key w.
Proof.
  intros ss xs F. induction F as [|s x ss xs [_ E] F IH]; intros v best key w; [reflexivity|]. cbn. rewrite E.
  destruct (fill P x v w) as [[[y k]|e] w1].
  - destruct (rank_lt k key); [apply IH|]. destruct (rank_eq k key); apply IH.
  - destruct (is_Exception e); [|reflexivity]. destruct best; [|apply IH]. inversion F; subst; [reflexivity|]. exact (IH v [] key w1).
Qed.

Lemma union_ext : forall o p o' p' ss xs, Forall2 ext ss xs -> ext (FUnion o p ss true) (FUnion o' p' xs true).
Proof.
  intros o p o' p' ss xs F. split; [apply (all_hollow_ext _ _ F)|]. intros v w. cbn. rewrite (all_hollow_ext _ _ F). destruct (forallb is_hollow xs); [reflexivity|].
  unfold bind. rewrite (union_loop_ext _ _ F). reflexivity.
Qed.

Lemma sim_list : forall hs hs', Forall2 Sim hs hs' -> forall pre pre', drops pre pre' ->
  (forall ss, mapO (made [] pre) hs = Ok ss -> exists xs, mapO (made [] pre') hs' = Ok xs /\ Forall2 ext ss xs) /\
  (dflt <> SHollow -> forall xs, mapO (made [] pre') hs' = Ok xs -> exists ss, mapO (made [] pre) hs = Ok ss).
Proof.
  intros hs hs' F pre pre' D. induction F as [|h h' hs hs' S _ [IH1 IH2]]; cbn.
  - split; [intros ss [= <-]; eauto|]. intros _ xs _. eauto.
  - destruct (S [] [] pre pre' drops_nil D) as [S1 S2]. split.
    + intros ss H. crush. destruct (S1 _ E) as (x & -> & X). destruct (IH1 _ E0) as (xs & -> & XS). cbn. eauto.
    + intros N xs H. crush. destruct (S2 N _ E) as (s & ->). destruct (IH2 N _ E0) as (ss & ->). cbn. eauto.
Qed.

Lemma leaf_sim : forall k own own' pre pre', drops own own' -> drops pre pre' -> forall b : bool,
  forall h h', (forall o p, made o p h = do a <- leaf k o p; Ok (FAnn a)) -> (forall o p, made o p h' = do a <- leaf k o p; Ok (FAnn a)) ->
  (forall f, made own pre h = Ok f -> exists g, made own' pre' h' = Ok g /\ ext f g) /\
  (dflt <> SHollow -> forall g, made own' pre' h' = Ok g -> exists f, made own pre h = Ok f).
Proof.
  intros k own own' pre pre' D1 D2 _ h h' M M'. rewrite M, M'. destruct (leaf_like k _ _ _ _ D1 D2) as [L1 L2]. split.
  - intros f H. crush. destruct (L1 _ E) as (b & -> & L). cbn. eexists. split; [reflexivity|]. eapply ext_leafs; try reflexivity. assumption.
  - intros _ g H. crush. destruct (L2 _ E) as (c & ->). cbn. eauto.
Qed.

Lemma made_leaf : forall k o p (g : token -> token), (do f <- Ok (FAnn (mk_afiller k o)); bind_with P dflt p f) = (do a <- leaf k o p; Ok (FAnn a)).
Proof. intros. unfold leaf. cbn. destruct (aapplys P (mk_afiller k o) p) as [a|]; [|reflexivity]. cbn. destruct (abind P dflt a); reflexivity. Qed.

Lemma type_sim : forall base, Sim (HType base) (HType base).
Proof.
  intros base own own' pre pre' D1 D2. destruct (leaf_like (KSimple (t_type P)) _ _ _ _ D1 D2) as [L1 L2].
  assert (M : forall o p f, made o p (HType base) = Ok f <-> exists a, leaf (KSimple (t_type P)) o p = Ok a /\
    f = FType true (if ahollow a then a else add_validator a (type_validator P base)) base).
  { intros o p f. unfold made, leaf. cbn [gaf obind bind_with]. split.
    - intros H. crush. rewrite E. cbn. eauto.
    - intros (a & H & ->). destruct (aapplys P _ p) as [a0|]; [|discriminate]. cbn in *. rewrite H. reflexivity. }
  split.
  - intros f H. apply M in H. crush; subst. destruct (L1 _ H) as (b & Eb & L). eexists. split; [apply M; eauto|].
    eapply ext_leafs; try reflexivity. rewrite <- (like_hollow _ _ L). destruct (ahollow x); [assumption|]. apply like_add. assumption.
  - intros _ g H. apply M in H. crush. destruct (L2 _ H) as (c & Ec). eexists. apply M. eauto.
Qed.

Lemma made_other : forall own pre f, made own pre HOther = Ok f <-> own = [] /\ pre = [] /\ dflt = SHollow /\ f = FDumb true.
Proof.
  intros [|t own] [|u pre] f; unfold made; cbn; try (split; [discriminate|intros (? & ? & ? & ?); discriminate]).
  destruct dflt; cbn; split; try discriminate; try (intros (? & ? & ? & ?); discriminate).
  - intros [= <-]. auto.
  - intros (_ & _ & _ & ->). reflexivity.
Qed.

Lemma other_sim : Sim HOther HOther.
Proof.
  intros own own' pre pre' D1 D2. split.
  - intros f H. apply made_other in H as (-> & -> & E & ->). inversion D1; subst. inversion D2; subst.
    exists (FDumb true). split; [apply made_other; auto|]. split; reflexivity.
  - intros N g H. apply made_other in H as (_ & _ & E & _). contradiction.
Qed.

Lemma tuple_v_sim : forall h h', Sim h h' -> Sim (HTupleV h) (HTupleV h').
Proof.
  intros h h' S own own' pre pre' D1 D2. destruct (leaf_like (KSimple (t_tuple P)) _ _ _ _ D1 D2) as [L1 L2].
  destruct (S [] [] [] [] drops_nil drops_nil) as [S1 S2]. split.
  - intros f H. apply made_tuple_v in H. crush. destruct (L1 _ H) as (b & Eb & L). destruct (S1 _ H0) as (y & Ey & EY).
    destruct (wrap_tuple_v_ext _ _ _ _ _ L EY H1) as (g & Eg & X). exists g. split; [|assumption]. apply made_tuple_v. eauto.
  - intros N g H. apply made_tuple_v in H. crush. destruct (L2 _ H) as (b & Eb). destruct (S2 N _ H0) as (y & Ey).
    destruct (L1 _ Eb) as (b' & Eb' & L). destruct (S1 _ Ey) as (y' & Ey' & EY). assert (b' = x) by congruence. assert (y' = x0) by congruence. subst.
    destruct (wrap_tuple_v_ext _ _ _ _ _ (like_sym _ _ L) (ext_sym _ _ EY) H1) as (f & Ef & X). exists f. apply made_tuple_v. eauto.
Qed.

Lemma iter_sim : forall rk t h h', Sim h h' -> Sim (HIter rk t h) (HIter rk t h').
Proof.
  intros rk t h h' S own own' pre pre' D1 D2. destruct (leaf_like (KSimple t) _ _ _ _ D1 D2) as [L1 L2].
  destruct (S [] [] [] [] drops_nil drops_nil) as [S1 S2]. split.
  - intros f H. apply made_iter in H. crush. destruct (L1 _ H) as (b & Eb & L). destruct (S1 _ H0) as (y & Ey & EY).
    destruct (wrap_iter_ext _ _ _ _ _ _ L EY H1) as (g & Eg & X). exists g. split; [|assumption]. apply made_iter. eauto.
  - intros N g H. apply made_iter in H. crush. destruct (L2 _ H) as (b & Eb). destruct (S2 N _ H0) as (y & Ey).
    destruct (L1 _ Eb) as (b' & Eb' & L). destruct (S1 _ Ey) as (y' & Ey' & EY). assert (b' = x) by congruence. assert (y' = x0) by congruence. subst.
    destruct (wrap_iter_ext _ _ _ _ _ _ (like_sym _ _ L) (ext_sym _ _ EY) H1) as (f & Ef & X). exists f. apply made_iter. eauto.
Qed.

Lemma map_sim : forall rk t k k' x x', Sim k k' -> Sim x x' -> Sim (HMap rk t k x) (HMap rk t k' x').
Proof.
  intros rk t k k' x x' S T' own own' pre pre' D1 D2. destruct (leaf_like (KSimple t) _ _ _ _ D1 D2) as [L1 L2].
  destruct (S [] [] [] [] drops_nil drops_nil) as [S1 S2]. destruct (T' [] [] [] [] drops_nil drops_nil) as [T1 T2]. split.
  - intros f H. apply made_map in H as (a & s & u & H & H0 & H1 & H2). destruct (L1 _ H) as (b & Eb & L). destruct (S1 _ H0) as (y & Ey & EY).
    destruct (T1 _ H1) as (z & Ez & EZ).
    destruct (wrap_map_ext _ _ _ _ _ _ _ _ L EY EZ H2) as (g & Eg & X). exists g. split; [|assumption]. apply made_map. eauto 8.
  - intros N g H. apply made_map in H as (a & s & u & H & H0 & H1 & H2). destruct (L2 _ H) as (b & Eb). destruct (S2 N _ H0) as (y & Ey). destruct (T2 N _ H1) as (z & Ez).
    destruct (L1 _ Eb) as (b' & Eb' & L). destruct (S1 _ Ey) as (y' & Ey' & EY). destruct (T1 _ Ez) as (z' & Ez' & EZ).
    assert (b' = a) by congruence. assert (y' = s) by congruence. assert (z' = u) by congruence. subst.
    destruct (wrap_map_ext _ _ _ _ _ _ _ _ (like_sym _ _ L) (ext_sym _ _ EY) (ext_sym _ _ EZ) H2) as (f & Ef & X). exists f. apply made_map. eauto 8.
Qed.

Lemma exts_sym : forall ss xs, Forall2 ext ss xs -> Forall2 ext xs ss.
Proof. induction 1; constructor; auto using ext_sym. Qed.

Lemma tuple_n_sim : forall hs hs', Forall2 Sim hs hs' -> Sim (HTupleN hs) (HTupleN hs').
Proof.
  intros hs hs' S own own' pre pre' D1 D2. destruct (leaf_like (KSimple (t_tuple P)) _ _ _ _ D1 D2) as [L1 L2].
  destruct (sim_list _ _ S [] [] drops_nil) as [S1 S2]. split.
  - intros f H. apply made_tuple_n in H. crush. destruct (L1 _ H) as (b & Eb & L). destruct (S1 _ H0) as (y & Ey & EY).
    destruct (wrap_tuple_n_ext _ _ _ _ _ L EY H1) as (g & Eg & X). exists g. split; [|assumption]. apply made_tuple_n. eauto.
  - intros N g H. apply made_tuple_n in H. crush. destruct (L2 _ H) as (b & Eb). destruct (S2 N _ H0) as (y & Ey).
    destruct (L1 _ Eb) as (b' & Eb' & L). destruct (S1 _ Ey) as (y' & Ey' & EY). assert (b' = x) by congruence. assert (y' = x0) by congruence. subst.
    destruct (wrap_tuple_n_ext _ _ _ _ _ (like_sym _ _ L) (exts_sym _ _ EY) H1) as (f & Ef & X). exists f. apply made_tuple_n. eauto.
Qed.

Lemma gen_sim : forall t hs hs', Forall2 Sim hs hs' -> Sim (HGenN t hs) (HGenN t hs').
Proof.
  intros t hs hs' S own own' pre pre' D1 D2. destruct (leaf_like (KSimple t) _ _ _ _ D1 D2) as [L1 L2].
  destruct (sim_list _ _ S [] [] drops_nil) as [S1 S2]. split.
  - intros f H. apply made_gen in H. crush. destruct (L1 _ H) as (b & Eb & L). destruct (S1 _ H0) as (y & Ey & EY).
    destruct (wrap_gen_ext _ _ _ _ _ L EY H1) as (g & Eg & X). exists g. split; [|assumption]. apply made_gen. eauto.
  - intros N g H. apply made_gen in H. crush. destruct (L2 _ H) as (b & Eb). destruct (S2 N _ H0) as (y & Ey).
    destruct (L1 _ Eb) as (b' & Eb' & L). destruct (S1 _ Ey) as (y' & Ey' & EY). assert (b' = x) by congruence. assert (y' = x0) by congruence. subst.
    destruct (wrap_gen_ext _ _ _ _ _ (like_sym _ _ L) (exts_sym _ _ EY) H1) as (f & Ef & X). exists f. apply made_gen. eauto.
Qed.

Lemma union_sim : forall hs hs', Forall2 Sim hs hs' -> Sim (HUnion hs) (HUnion hs').
Proof.
  intros hs hs' S own own' pre pre' D1 D2. destruct (sim_list _ _ S _ _ (drops_app _ _ _ _ D1 D2)) as [S1 S2]. split.
  - intros f H. apply made_union in H. crush; subst. destruct (S1 _ H) as (y & Ey & EY). eexists. split; [apply made_union; eauto|]. apply union_ext. assumption.
  - intros N g H. apply made_union in H. crush. destruct (S2 N _ H) as (y & Ey). eexists. apply made_union. eauto.
Qed.

Lemma alias_sim : forall h h', alias_rel Sim h h' -> Sim h h'.
Proof.
  intros h h' A. destruct A.
  - intros own own' pre pre' D1 D2. apply (leaf_sim (class_kind P t) _ _ _ _ D1 D2 true); intros; apply (made_leaf _ _ _ (fun t => t)).
  - apply type_sim.
  - apply other_sim.
  - apply tuple_v_sim. assumption.
  - apply tuple_n_sim. assumption.
  - apply iter_sim. assumption.
  - apply map_sim; assumption.
  - apply gen_sim. assumption.
Qed.

Definition is_ann (y : typing) : bool := match y with YAnn _ _ => true | _ => false end.

Lemma docs_kind : forall y : typing, tidy y -> is_typevar (without_docs y) = is_typevar y /\ is_ellipsis (without_docs y) = is_ellipsis y /\ (is_ann y = false -> is_ann (without_docs y) = false).
Proof.
  intros [t| | | | | | |y|ys|l vs|t ps|y ms] HT; try (repeat split; auto; fail).
  destruct HT as [HT1 HT2]. cbn [without_docs]. destruct (filter _ ms) as [|m r]; [|repeat split; discriminate].
  destruct y; try contradiction; repeat split; try reflexivity; discriminate.
Qed.

Lemma made_ann : forall own pre y ms, made own pre (hint_of (YAnn y ms)) = made (map (@meta_token obj ty W) ms ++ own) pre (hint_of y).
Proof. reflexivity. Qed.

Lemma made_newtype : forall own pre y, is_ann y = false -> made own pre (hint_of (YNewType y)) = made own pre (hint_of y).
Proof. intros own pre y H. unfold made. rewrite gaf_newtype; [reflexivity|]. destruct y; try exact I. discriminate. Qed.

Lemma docs_sim : forall y, types_of_classes P y -> tidy y -> Sim (hint_of y) (hint_of (without_docs y)).
Proof.
  assert (LS : forall k h, (forall o p, made o p h = do a <- leaf k o p; Ok (FAnn a)) -> Sim h h).
  { intros k h M own own' pre pre' D1 D2. apply (leaf_sim k _ _ _ _ D1 D2 true); assumption. }
  induction y as [t| | | | | | |y IH|ys IH|l vs|t ps IH|y ms IH] using typing_ind'; intros HC HT;
    try (eapply LS; intros; apply (made_leaf _ _ _ (fun t => t)); fail); try apply other_sim.
  - cbn [without_docs]. destruct HT as [HT1 HT2]. assert (NA : is_ann y = false) by (destruct y; auto; contradiction).
    intros own own' pre pre' D1 D2. rewrite !made_newtype; [|apply docs_kind; assumption|assumption]. apply IH; auto. apply HC.
  - apply every_union in HC as [_ HC]. apply every_union in HT as [_ HT]. apply union_sim. cbn.
    induction IH as [|y r IHy _ IHr]; [constructor|]. inversion HC; subst. inversion HT; subst. constructor; auto.
  - apply every_alias in HC as [HC0 HC]. apply every_alias in HT as [_ HT]. cbn [without_docs]. apply alias_sim. apply alias_shape.
    + apply Forall_forall. intros p I. rewrite Forall_forall in IH, HC, HT. destruct (docs_kind p (HT p I)) as (? & ? & _). split; [assumption|]. split; [assumption|].
      apply IH; auto; [apply HC|apply HT]; assumption.
    + intros E1 E2. destruct (HC0 E1 E2) as [b ->]. reflexivity.
  - destruct HT as [HT1 HT2]. specialize (IH (proj2 HC) HT2). intros own own' pre pre' D1 D2. rewrite made_ann. cbn [without_docs].
    pose proof (drops_app _ _ _ _ (drops_metas ms) D1) as D. destruct (filter _ ms) as [|m r]; [|rewrite made_ann]; apply IH; assumption.
Qed.

End Docs.
