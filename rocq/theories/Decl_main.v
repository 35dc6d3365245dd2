(** Decl_main.v -- proofs of the properties stated in Props_Decl.v: how fields are declared: keywords of decorators, ClassVar (records/utils/decorators.py, records/field.py) *)

From Verif Require Import Base Py Filler Spec_Filler Tokens Hints Classes Spec_Classes Subkeys Decor Declared Demo.
From Verif Require Dict_proofs Classes_main Classes_proofs.
Open Scope string_scope.
Open Scope list_scope.

(** the parameters of the methods and of the function that decorator_kw_method makes *)
Definition reserved (k : string) : Prop := k = "self" \/ k = "f" \/ k = "func".

(** the callback that a token gives, for a field of any kind *)
Definition callback_of {obj ty W} (t : @token obj ty W) (o : origin) : outcome (@callback obj W) :=
  match t with
  | TValid (VGlobal g) => g o
  | TCoerce (CGlobal g) => g o
  | _ => Raise (mkexc TypeError "")
  end.

Import Dict_proofs.
Lemma no_key {A} k (kw : dict A) : (forall n, In n (keys kw) -> ~ reserved n) -> reserved k -> dmem k kw = false.
Proof.
  intros H R. destruct (dmem k kw) eqn:E; auto. exfalso.
  apply (H k); auto. now apply dmem_In.
Qed.

Lemma ddel_keys {A} k n (kw : dict A) : dict_ok kw -> (In n (keys (ddel k kw)) <-> In n (keys kw) /\ n <> k).
Proof.
  intros H. assert (G : forall n, In n (keys (ddel k kw)) <-> dget n (ddel k kw) <> None).
  { intros x. rewrite dget_None. destruct (in_dec string_dec x (keys (ddel k kw))); tauto. }
  rewrite G, dget_ddel by auto. destruct (String.eqb_spec n k).
  - split; [tauto|]. intros [_ ?]. tauto.
  - rewrite dget_None. destruct (in_dec string_dec n (keys kw)); tauto.
Qed.

Lemma c125_before_partial_proof :
  forall {obj ty W} (X : Ops obj ty W) is_none key_of asserting a kw f,
  (forall n, In n (keys kw) -> ~ reserved n) ->
  exists kw', call_adder X is_none key_of asserting a [] kw = Ok (Waiting kw') /\
    call_waiting X is_none key_of asserting a kw' f = call_adder X is_none key_of asserting a [f] kw.
Proof.
  intros obj ty W X is_none key_of asserting a kw f H. exists kw.
  unfold call_waiting, call_adder. rewrite (no_key "self" kw H) by (unfold reserved; auto).
  pose proof (no_key "f" kw H ltac:(unfold reserved; auto)) as Hf. split; auto.
  assert (G : dget "f" kw = None).
  { apply dget_None. intros Hi. apply dmem_In in Hi. congruence. }
  unfold ret_f. rewrite G. rewrite ddel_notin; auto. now apply dmem_false.
Qed.

Lemma c125_calls_partial_proof :
  forall {obj ty W} (X : Ops obj ty W) is_none key_of asserting a kw f,
  dict_ok kw -> a <> AddAssertValidator -> (forall n, In n (keys kw) -> ~ reserved n) -> is_none f = false ->
  exists part t kw',
    call_adder X is_none key_of asserting a [f] kw = Ok (Finished (part, t) f) /\
    (dget "sub_key" kw = None -> part = SkNone) /\
    (forall s, dget "sub_key" kw = Some s -> is_none s = false -> part = key_of s) /\
    (forall n, n <> "sub_key" -> dget n kw' = dget n kw) /\ dget "sub_key" kw' = None /\
    (match a with AddCoercer => exists c, t = TCoerce c | _ => exists v, t = TValid v end) /\
    forall o, exists g, callback_of t o = Ok g /\ forall v w, g v w = op_call X f [v] kw' w.
Proof.
  intros obj ty W X is_none key_of asserting a kw f Hok Ha H Hf.
  unfold call_adder. rewrite (no_key "self" kw H), (no_key "f" kw H) by (unfold reserved; auto).
  cbn [ret_f]. rewrite Hf. unfold add_method. rewrite (no_key "func" kw H) by (unfold reserved; auto).
  assert (D : forall n, n <> "sub_key" -> dget n (ddel "sub_key" kw) = dget n kw) by (intros n Hn; now rewrite dget_ddel_other).
  assert (E : dget "sub_key" (ddel "sub_key" kw) = None) by (now apply dget_ddel_same).
  assert (S : forall s, dget "sub_key" kw = Some s -> is_none s = false ->
    match dget "sub_key" kw with Some k => if is_none k then SkNone else key_of k | None => SkNone end = key_of s).
  { intros s -> ->. reflexivity. }
  assert (N : dget "sub_key" kw = None ->
    match dget "sub_key" kw with Some k => if is_none k then SkNone else key_of k | None => SkNone end = SkNone).
  { intros ->. reflexivity. }
  destruct a; [| now destruct Ha |]; cbn [token_of obind fst snd]; do 2 eexists; exists (ddel "sub_key" kw);
    (split; [reflexivity|]); (split; [exact N|]); (split; [exact S|]); (split; [exact D|]); (split; [exact E|]);
    (split; [eexists; reflexivity|]); intros o; eexists; (split; [reflexivity|]); reflexivity.
Qed.

Lemma c125_assert_proof :
  forall {obj ty W} (X : Ops obj ty W) is_none key_of asserting kw f,
  dict_ok kw -> is_none f = false ->
  ((forall n, In n (keys kw) -> n = "sub_key" \/ n = "err" \/ n = "warn") ->
     exists part t, call_adder X is_none key_of asserting AddAssertValidator [f] kw = Ok (Finished (part, t) f) /\
       (dget "sub_key" kw = None -> part = SkNone) /\
       (forall s, dget "sub_key" kw = Some s -> is_none s = false -> part = key_of s) /\
       forall o, exists g, callback_of t o = Ok g /\
         forall v w, g v w = assert_call X f (asserting (dget "err" kw) (dget "warn" kw)) v w) /\
  (forall n, In n (keys kw) -> n <> "sub_key" -> n <> "err" -> n <> "warn" ->
     exists m, call_adder X is_none key_of asserting AddAssertValidator [f] kw = Raise (mkexc TypeError m)).
Proof.
  intros obj ty W X is_none key_of asserting kw f Hok Hf. unfold call_adder. split.
  - intros H.
    assert (R : forall k, k <> "sub_key" -> k <> "err" -> k <> "warn" -> dmem k kw = false).
    { intros k H1 H2 H3. destruct (dmem k kw) eqn:E; auto. apply dmem_In, H in E. intuition. }
    rewrite (R "self"), (R "f") by discriminate. cbn [ret_f]. rewrite Hf. unfold add_method. rewrite (R "func") by discriminate.
    assert (F : forallb (fun k => smem k ["err"; "warn"]) (keys (ddel "sub_key" kw)) = true).
    { apply forallb_forall. intros k Hk. apply ddel_keys in Hk as [Hk Hn]; auto. apply H in Hk as [->|[->| ->]]; [now destruct Hn|reflexivity|reflexivity]. }
    cbn [token_of]. rewrite F. cbn [obind fst snd]. do 2 eexists. split; [reflexivity|].
    split; [now intros -> |]. split; [now intros s -> ->|].
    rewrite !dget_ddel_other by discriminate. intros o. eexists. split; reflexivity.
  - intros n Hn H1 H2 H3. destruct (dmem "self" kw); [eexists; reflexivity|]. destruct (dmem "f" kw); [eexists; reflexivity|].
    cbn [ret_f]. rewrite Hf. unfold add_method. destruct (dmem "func" kw); [eexists; reflexivity|].
    assert (F : forallb (fun k => smem k ["err"; "warn"]) (keys (ddel "sub_key" kw)) = false).
    { destruct (forallb _ _) eqn:E; auto. exfalso. rewrite forallb_forall in E.
      assert (Hk : In n (keys (ddel "sub_key" kw))) by (apply ddel_keys; auto).
      apply E in Hk. apply smem_In in Hk as [<-|[<-|[]]]; auto. }
    cbn [token_of]. rewrite F. eexists. reflexivity.
Qed.

Lemma c125_reserved_refuted_proof :
  forall {obj ty W} (X : Ops obj ty W) is_none key_of asserting a f x,
  is_none f = false -> is_none x = false ->
  (exists t, call_adder X is_none key_of asserting a [] [("f", x)] = Ok (Finished (SkNone, t) x)) /\
  (exists m, call_adder X is_none key_of asserting a [f] [("f", x)] = Raise (mkexc TypeError m)) /\
  (exists kw m, call_adder X is_none key_of asserting a [] [("func", x)] = Ok (Waiting kw) /\
                call_waiting X is_none key_of asserting a kw f = Raise (mkexc TypeError m)) /\
  (exists m, call_adder X is_none key_of asserting a [] [("self", x)] = Raise (mkexc TypeError m)).
Proof.
  intros obj ty W X is_none key_of asserting a f x Hf Hx.
  split; [|split; [|split]].
  - unfold call_adder. cbn. rewrite Hx. destruct a; eexists; reflexivity.
  - eexists. reflexivity.
  - do 2 eexists. split; [reflexivity|]. unfold call_waiting, call_adder. cbn. rewrite Hf. reflexivity.
  - eexists. reflexivity.
Qed.

Lemma c126_declared_proof :
  forall {obj ty W} (P : Py obj ty W) T frozen owner name dflt (d : @declared obj ty W),
  of_declared P T frozen owner name dflt d = from_type_hint P frozen owner name dflt (ann_of P T d).
Proof.
  intros obj ty W P T frozen owner name dflt. fix IH 1. intros [p|p a args]; destruct p as [| |d|d|y]; try reflexivity.
  - cbn. destruct (negb frozen); auto. rewrite IH. destruct (from_type_hint _ _ _ _ _ _) as [[f|]|]; cbn; auto. now destruct f.
  - cbn. destruct (negb frozen); auto. rewrite IH. destruct (from_type_hint _ _ _ _ _ _) as [[f|]|]; cbn; auto.
Qed.

Lemma other_filler {obj ty W} (P : Py obj ty W) dflt ops f : make_filler P dflt HOther ops = Ok f -> f = FDumb true /\ dflt = SHollow /\ ops = [].
Proof.
  unfold make_filler. cbn. destruct ops as [|[[n|] t] ops]; cbn.
  - unfold bind_filler. cbn. destruct dflt; cbn; intros H; try discriminate. injection H as <-. auto.
  - destruct t; discriminate.
  - discriminate.
Qed.

Lemma c126_classvar_partial_proof :
  forall {obj ty W} (P : Py obj ty W) T d c k x y,
  make_class P d = Ok c -> dict_ok (d_anns d) ->
  dget k (d_anns d) = Some (ann_of P T x) -> fst (split x) = PClassVarOf y ->
  ~ In k (inherited_names d) ->
  ~ In k (keys (c_fields c)).
Proof.
  intros obj ty W P T d c k x y Hc Hok Hk Hx Hn Hi.
  rewrite (Classes_main.c59_names_proof P d c Hc Hok) in Hi. apply in_app_or in Hi as [Hi|Hi]; auto.
  assert (E : ann_of P T x = AClassVar) by (destruct x; cbn in *; now subst).
  unfold own_field_names in Hi. apply in_app_or in Hi as [Hi|Hi]; apply filter_In in Hi as [_ Hi]; rewrite Hk, E in Hi; discriminate.
Qed.

Lemma c126_bare_refuted_proof :
  forall {obj ty W} (P : Py obj ty W) T d c k,
  make_class P d = Ok c -> dict_ok (d_anns d) -> (forall b, In (BRecord b) (d_bases d) -> made P b) ->
  dget k (d_anns d) = Some (ann_of P T (Plain PClassVar)) ->
  exists f, dget k (c_fields c) = Some f /\ f_default f = d_static d k /\
    forall v w, fill P (f_filler f) v w = (Ok (v, PHollow), w).
Proof.
  intros obj ty W P T d c k Hc Hok Hb Hk.
  destruct (Classes_main.c59_fields_proof P d c Hc Hok Hb) as [_ H].
  destruct (H k _ Hk eq_refl) as (f & H1 & _ & _ & H2 & _ & H3). exists f. split; auto. split; auto.
  cbn in H3. apply other_filler in H3 as (-> & _). reflexivity.
Qed.

Lemma c126_bare_checked_refuted_proof :
  forall {obj ty W} (P : Py obj ty W) T d k,
  dict_ok (d_anns d) -> (forall b, In (BRecord b) (d_bases d) -> made P b) ->
  dget k (d_anns d) = Some (ann_of P T (Plain PClassVar)) -> d_style d <> SHollow ->
  exists e, make_class P d = Raise e.
Proof.
  intros obj ty W P T d k Hok Hb Hk Hs. destruct (make_class P d) as [c|e] eqn:Hc; [|eauto]. exfalso.
  destruct (Classes_main.c59_fields_proof P d c Hc Hok Hb) as [_ H].
  destruct (H k _ Hk eq_refl) as (f & _ & _ & _ & _ & _ & H3). cbn in H3. apply other_filler in H3 as (_ & ? & _). auto.
Qed.
