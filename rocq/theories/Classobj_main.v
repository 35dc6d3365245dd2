(** Classobj_main.v -- proofs of the properties stated in Props_Classobj.v: Type[...] fields, and coercion tokens that an annotation does not know (typing_fillers.py:140-156, filler.py:249-258) *)

From Verif Require Import Base Py Filler Spec_Filler Classes Spec_Classes Spec_Settle Spec_Wider Demo DemoRt DemoCls.
From Verif Require Filler_proofs Filler_sound Filler_shape Filler_eqs Filler_leaf Filler_kind Filler_decl.
Open Scope string_scope.
Open Scope list_scope.

Import Filler_proofs Filler_sound Filler_shape Filler_eqs Filler_leaf Filler_kind Filler_decl.

(** [x] is a class: an instance of type or, if the field is strict, of exactly type *)
Definition is_class {obj ty W} (P : Py obj ty W) (s : style) (x : obj) : Prop :=
  match s with SStrict => type_of P x = t_type P | _ => type_of P x = t_type P \/ isinstance P x (t_type P) = true end.

Lemma c165_type_proof : forall {obj ty W} (P : Py obj ty W) d base f,
  make_filler P d (HType base) [] = Ok f -> forall x w,
  (d = SHollow -> call P f x w = (Ok x, w)) /\
  (checks d -> is_class P d x -> issubclass P x base = Ok true -> call P f x w = (Ok x, w)) /\
  (checks d -> is_class P d x -> issubclass P x base = Ok false -> exists m, call P f x w = (Raise (mkexc ValueError m), w)) /\
  (forall e, checks d -> is_class P d x -> issubclass P x base = Raise e -> call P f x w = (Raise e, w)) /\
  (checks d -> ~ is_class P d x -> exists m, call P f x w = (Raise (mkexc TypeError m), w)).
Proof.
  intros obj ty W P d base f H x w. assert (SW : forall t, ty_eqb P t t = true) by (intro t; destruct (ty_eqP P t t); [reflexivity|congruence]).
  assert (RES : forall s, d = s -> checks s -> call P f x w =
    match (if ty_eqb P (type_of P x) (t_type P) then true else isinstance P x (t_type P) && style_eqb s SCheck) with
    | false => (Raise (mkexc TypeError "failed type checking"), w)
    | true => type_validator P base x w
    end).
  { intros s -> HS. unfold make_filler in H. cbn in H. destruct HS as [-> | ->]; cbn in H;
      try (destruct (isabstract P (t_type P)); [discriminate|]; cbn in H); injection H as <-; rewrite call_eq; cbn [fill]; unfold afill; cbn;
      unfold bind; cbn; unfold type_phase; cbn; unfold simple_check;
      destruct (ty_eqb P (type_of P x) (t_type P)); cbn; unfold bind; try (destruct (type_validator P base x w) as [[y|e] w1]; reflexivity);
      destruct (isinstance P x (t_type P)); cbn; unfold bind; try reflexivity; destruct (type_validator P base x w) as [[y|e] w1]; reflexivity. }
  assert (YES : checks d -> is_class P d x -> call P f x w = type_validator P base x w).
  { intros HC HI. rewrite (RES d eq_refl HC). destruct (ty_eqP P (type_of P x) (t_type P)) as [E|E]; [reflexivity|].
    destruct HC as [-> | ->]; cbn in HI; [destruct HI as [HI|HI]; [contradiction|]; rewrite HI; reflexivity | contradiction]. }
  split; [|split; [|split; [|split]]].
  - intros ->. unfold make_filler in H. cbn in H. injection H as <-. rewrite call_eq. reflexivity.
  - intros HC HI E. rewrite (YES HC HI). unfold type_validator. rewrite E. reflexivity.
  - intros HC HI E. rewrite (YES HC HI). unfold type_validator. rewrite E. eexists. reflexivity.
  - intros e HC HI E. rewrite (YES HC HI). unfold type_validator. rewrite E. reflexivity.
  - intros HC HN. rewrite (RES d eq_refl HC). destruct (ty_eqP P (type_of P x) (t_type P)) as [E|E].
    + exfalso. apply HN. destruct HC as [-> | ->]; cbn; auto.
    + destruct HC as [-> | ->]; cbn in HN |- *; rewrite ?andb_true_r, ?andb_false_r.
      * destruct (isinstance P x (t_type P)) eqn:I; [exfalso; auto|]. eexists; reflexivity.
      * eexists; reflexivity.
Qed.

(** a coercion token that a field of class [t] has no coercer for: FromInteger unless it is a bool, a
    token that is not callable, and a composition that contains such a token *)
Inductive unknown {obj ty W} (P : Py obj ty W) (t : ty) : @ctoken obj ty W -> Prop :=
| unknown_integer : t <> t_bool P -> unknown P t CFromInteger
| unknown_any : unknown P t CBad
| unknown_inside : forall cs c, In c cs -> unknown P t c -> unknown P t (CCompose cs).

Lemma mapO_bad : forall {A B} (g : A -> outcome B) l x, In x l -> (forall y, g x <> Ok y) -> forall ys, mapO g l <> Ok ys.
Proof.
  intros A B g l. induction l as [|a r IH]; intros x I N ys H; [destruct I|]. cbn in H. destruct (g a) as [a0|] eqn:Ha; [|discriminate]. cbn in H. destruct (mapO g r) as [bs|] eqn:Hb; [|discriminate].
  destruct I as [<-|I]; [exact (N _ Ha)|]. exact (IH _ I N _ eq_refl).
Qed.
Lemma class_not_bool : forall {obj ty W} (P : Py obj ty W) t, t <> t_bool P -> @class_kind obj ty W P t <> KBool.
Proof.
  intros obj ty W P t N. unfold class_kind. destruct (ty_eqP P t (t_bool P)); [contradiction|]. destruct (ty_eqb P t (t_none P)); [discriminate|].
  destruct (ty_eqb P t (t_ellipsis P)); discriminate.
Qed.
Lemma unknown_coercer : forall {obj ty W} (P : Py obj ty W) t c, unknown P t c -> forall y, get_coercer P (class_kind P t) c <> Ok y.
Proof.
  intros obj ty W P t c U. induction U as [N| |cs c I U IH]; intros y H; cbn in H.
  - pose proof (class_not_bool P t N) as K. destruct (class_kind P t); try discriminate. contradiction.
  - discriminate.
  - oinv H. eapply mapO_bad; eassumption.
Qed.

Lemma c165_unknown_proof : forall {obj ty W} (P : Py obj ty W) d t toks ops c,
  In (TCoerce c) toks -> unknown P t c -> forall f, make_filler P d (HAnn (HTy t) toks) ops <> Ok f.
Proof.
  intros obj ty W P d t toks ops c I U f H.
  destruct (leaf_make P (HTy t) (class_kind P t) _ _ _ _ eq_refl H) as (cs & vs & HC & _).
  revert cs HC. induction (own_ops ops) as [|o r IH]; cbn [app].
  - clear H. induction toks as [|k r IH]; [destruct I|]. intros cs HC. cbn in HC. destruct I as [-> | I].
    + destruct (get_coercer P (class_kind P t) c) eqn:E; [exact (unknown_coercer P t c U _ E)|discriminate].
    + destruct k; try (exact (IH I _ HC)). destruct (get_coercer P (class_kind P t) c0); [|discriminate]. cbn in HC.
      destruct (tok_coercers P (class_kind P t) r) eqn:E; [exact (IH I _ eq_refl)|discriminate].
  - intros cs HC. cbn in HC. destruct o; try (exact (IH _ HC)). destruct (get_coercer P (class_kind P t) c0); [|discriminate]. cbn in HC.
    destruct (tok_coercers P (class_kind P t) (r ++ toks)) eqn:E; [exact (IH _ eq_refl)|discriminate].
Qed.

Lemma c165_error_proof : forall {obj ty W} (P : Py obj ty W) d t pre post,
  (forall k, In k pre -> k = TOther \/ exists s, k = TStyle s) ->
  (t <> t_bool P -> exists m, make_filler P d (HAnn (HTy t) (pre ++ TCoerce CFromInteger :: post)) [] = Raise (mkexc TypeError m)) /\
  (exists m, make_filler P d (HAnn (HTy t) (pre ++ TCoerce CBad :: post)) [] = Raise (mkexc TypeError m)) /\
  (exists m, make_filler P d (HAnn (HTy t) (pre ++ TValid VBad :: post)) [] = Raise (mkexc TypeError m)).
Proof.
  intros obj ty W P d t pre post HP.
  assert (A : forall (a : afiller) k rest e, a_bound a = false -> (forall a', a_kind a' = a_kind a -> a_bound a' = false -> aapply P a' k = Raise e) -> aapplys P a (pre ++ k :: rest) = Raise e).
  { induction pre as [|q r IH]; intros a k rest e HB HA; cbn.
    - rewrite (HA a eq_refl HB). reflexivity.
    - assert (IHH := IH (fun z HZ => HP z (or_intror HZ))). destruct (HP q (or_introl eq_refl)) as [-> | [s ->]]; unfold aapply at 1; rewrite HB; cbn; apply IHH; auto. }
  assert (B : forall k e, (forall a', a_kind a' = class_kind P t -> a_bound a' = false -> aapply P a' k = Raise e) ->
    make_filler P d (HAnn (HTy t) (pre ++ k :: post)) [] = Raise e).
  { intros k e HA. unfold make_filler, get_filler. cbn [gaf obind apply_ops]. unfold bind_filler. cbn [bind_with aapplys obind].
    unfold abind. cbn [mk_afiller a_args]. rewrite app_nil_r. rewrite (A _ k post e); [reflexivity|reflexivity|]. exact HA. }
  split; [|split].
  - intros N. eexists. apply B. intros a' K HB. unfold aapply. rewrite HB, K. pose proof (class_not_bool P t N). cbn.
    destruct (class_kind P t); try contradiction; reflexivity.
  - eexists. apply B. intros a' K HB. unfold aapply. rewrite HB. reflexivity.
  - eexists. apply B. intros a' K HB. unfold aapply. rewrite HB. reflexivity.
Qed.
