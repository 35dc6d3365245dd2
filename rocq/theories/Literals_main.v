(** Literals_main.v -- proofs of the properties stated in Props_Literals.v: when the coercers of a Literal field are asked (LiteralFiller.type_check) *)

From Verif Require Import Base Py Filler Spec_Filler Classes Spec_Classes Spec_Settle Spec_Wider Demo DemoRt DemoCls.
From Verif Require Filler_proofs Filler_sound Filler_inv Filler_shape Filler_eqs Filler_leaf Filler_kind Filler_decl Filler_main Props_Filler Settle_main Wider_main.
Open Scope string_scope.
Open Scope list_scope.

Import Filler_proofs Filler_sound Filler_shape Filler_eqs Filler_leaf Filler_kind Filler_decl Settle_main Wider_main.

(** the class of the value is the class of a literal *)
Definition of_literal_class {obj ty W} (P : Py obj ty W) (vals : list obj) (x : obj) : Prop :=
  exists l, In l vals /\ type_of P x = type_of P l.

(** the value is an instance of the class of a literal *)
Definition instance_of_literal_class {obj ty W} (P : Py obj ty W) (vals : list obj) (x : obj) : Prop :=
  exists l, In l vals /\ isinstance P x (type_of P l) = true.

(** the tokens that are no coercions *)
Definition uncoerced {obj ty W} (toks : list (@token obj ty W)) : list token := filter (fun t => negb (is_coercion t)) toks.

Section Lemmas.
Context {obj ty W : Type} (P : Py obj ty W).
Notation token := (@token obj ty W).
Notation callback := (@callback obj W).
Notation akind := (@akind obj ty).

Lemma uncoerced_style : forall d (ts : list token), eff_style d (uncoerced ts) = eff_style d ts.
Proof.
  intros d ts. unfold eff_style, last_style.
  assert (E : forall a, fold_left (fun acc (t : token) => match t with TStyle s => s | _ => acc end) (uncoerced ts) a =
    fold_left (fun acc (t : token) => match t with TStyle s => s | _ => acc end) ts a); [|rewrite E; reflexivity].
  induction ts as [|[s|c|v|] r IH]; intro a; cbn; try apply IH. reflexivity.
Qed.

Lemma uncoerced_validators : forall (k : akind) ts, tok_validators P k (uncoerced ts) = tok_validators P k ts.
Proof. intros k. unfold uncoerced. induction ts as [|[s|c|v|] r IH]; cbn; try exact IH; try reflexivity. rewrite IH. reflexivity. Qed.

Lemma uncoerced_coercers : forall (k : akind) ts, (exists cs, tok_coercers P k ts = Ok cs) -> tok_coercers P k (uncoerced ts) = Ok [].
Proof.
  intros k. induction ts as [|[s|c|v|] r IH]; intros (cs & H); cbn in *; try (apply IH; eauto; fail); try reflexivity.
  - oinv H. oinv H. apply IH. eauto.
Qed.

Lemma mem_exact : forall t (l : list ty), ty_mem P t l = true <-> In t l.
Proof.
  intros t l. unfold ty_mem. rewrite existsb_exists. split.
  - intros (u & I & E). destruct (ty_eqP P t u); [subst; assumption|discriminate].
  - intro I. exists t. split; [assumption|]. destruct (ty_eqP P t t); congruence.
Qed.

Lemma no_question : forall lid vals s cs x w,
  (of_literal_class P vals x /\ checks s) \/ (instance_of_literal_class P vals x /\ s = SCheck) ->
  type_phase P (KLiteral lid vals) s cs x w = type_phase P (KLiteral lid vals) s [] x w.
Proof.
  intros lid vals s cs x w H. unfold type_phase. cbn [type_check].
  destruct (ty_mem P (type_of P x) (lit_types P lid vals w)) eqn:EM; [destruct s; reflexivity|].
  destruct H as [((l & I & E) & _)|((l & I & E) & ->)].
  - assert (ty_mem P (type_of P x) (lit_types P lid vals w) = true); [|congruence]. apply mem_exact. unfold lit_types. apply in_or_app. left. rewrite E. apply in_map. exact I.
  - replace (existsb (isinstance P x) (lit_types P lid vals w)) with true; [reflexivity|]. symmetry. apply existsb_exists. exists (type_of P l). split; [|exact E].
    unfold lit_types. apply in_or_app. left. apply in_map. exact I.
Qed.

Lemma question : forall lid vals s cs x w, lit_grown P lid w = [] -> ~ of_literal_class P vals x ->
  (s = SStrict \/ (s = SCheck /\ ~ instance_of_literal_class P vals x)) ->
  type_phase P (KLiteral lid vals) s cs x w =
  (match cs with [] => raise (mkexc TypeError "failed type checking") | _ => let* y := run_coercers P (KLiteral lid vals) s cs x in ret (y, PCoerce) end) w.
Proof.
  intros lid vals s cs x w HG HN HS.
  assert (EM : ty_mem P (type_of P x) (lit_types P lid vals w) = false).
  { destruct (ty_mem P (type_of P x) (lit_types P lid vals w)) eqn:EM; [|reflexivity]. apply mem_exact in EM. unfold lit_types in EM. rewrite HG, app_nil_r in EM.
    apply in_map_iff in EM. destruct EM as (l & E & I). destruct HN. exists l. auto. }
  unfold type_phase. cbn [type_check]. rewrite EM.
  destruct HS as [->|[-> HI]]; cbn.
  - destruct (existsb (isinstance P x) (lit_types P lid vals w)); reflexivity.
  - replace (existsb (isinstance P x) (lit_types P lid vals w)) with false; [reflexivity|]. symmetry.
    destruct (existsb (isinstance P x) (lit_types P lid vals w)) eqn:EI; [|reflexivity]. apply existsb_exists in EI. destruct EI as (t & I & E).
    unfold lit_types in I. rewrite HG, app_nil_r in I. apply in_map_iff in I. destruct I as (l & <- & I). destruct HI. exists l. auto.
Qed.

End Lemmas.

Lemma c162_not_asked_proof : forall {obj ty W} (P : Py obj ty W) d lid vals toks f g,
  make_filler P d (HAnn (HLiteral lid vals) toks) [] = Ok f ->
  make_filler P d (HAnn (HLiteral lid vals) (uncoerced toks)) [] = Ok g ->
  forall x w,
  (of_literal_class P vals x /\ checks (eff_style d toks)) \/ (instance_of_literal_class P vals x /\ eff_style d toks = SCheck) ->
  call P f x w = call P g x w.
Proof.
  intros obj ty W P d lid vals toks f g HF HG x w H.
  destruct (leaf_make P (HLiteral lid vals) (KLiteral lid vals) _ _ _ _ eq_refl HF) as (cs & vs & C & V & -> & _).
  destruct (leaf_make P (HLiteral lid vals) (KLiteral lid vals) _ _ _ _ eq_refl HG) as (cs' & vs' & C' & V' & -> & _).
  cbn [own_ops flat_map app] in *. rewrite (uncoerced_coercers P _ _ (ex_intro _ _ C)) in C'. injection C' as <-.
  rewrite uncoerced_validators, V in V'. injection V' as <-. rewrite uncoerced_style.
  rewrite !call_eq. cbn [fill]. unfold afill. cbn [a_kind a_style a_coercers a_validators]. unfold bind.
  rewrite (no_question P lid vals _ cs x w H). reflexivity.
Qed.

Lemma c162_asked_proof : forall {obj ty W} (P : Py obj ty W) d lid vals (c : callback) f g,
  checks d ->
  make_filler P d (HAnn (HLiteral lid vals) [TCoerce (CGlobal (fun _ => Ok c))]) [] = Ok f ->
  make_filler P d (HLiteral lid vals) [] = Ok g ->
  forall x w, lit_grown P lid w = [] -> ~ of_literal_class P vals x ->
  (d = SStrict \/ (d = SCheck /\ ~ instance_of_literal_class P vals x)) ->
  (forall e w', c x w = (Raise e, w') -> call P f x w = (Raise e, w')) /\
  (forall l w', c x w = (Ok l, w') -> In l vals -> lit_eq P l l = true -> call P f x w = (Ok l, w')) /\
  (forall y w', c x w = (Ok y, w') -> (forall l, In l vals -> type_of P l = type_of P y -> lit_eq P y l = false) -> exists e w'', call P f x w = (Raise e, w'')) /\
  exists m, call P g x w = (Raise (mkexc TypeError m), w).
Proof.
  intros obj ty W P d lid vals c f g HC HF HG x w HW HN HS.
  destruct (leaf_make P (HLiteral lid vals) (KLiteral lid vals) _ _ _ _ eq_refl HF) as (cs & vs & C & V & -> & _).
  assert (HG' : make_filler P d (HAnn (HLiteral lid vals) []) [] = Ok g) by exact HG.
  destruct (leaf_make P (HLiteral lid vals) (KLiteral lid vals) _ _ _ _ eq_refl HG') as (cs' & vs' & C' & V' & -> & _).
  cbn in C, V, C', V'. injection C as <-. injection V as <-. injection C' as <-. injection V' as <-.
  cbn [own_ops flat_map app]. change (eff_style d [TCoerce (CGlobal (fun _ => Ok c))]) with d. change (eff_style d []) with d.
  assert (EV : lit_validators P (KLiteral lid vals) d = [literal_validator P lid vals]) by (destruct HC as [-> | ->]; reflexivity).
  rewrite !call_eq. cbn [fill]. unfold afill. cbn [a_kind a_style a_coercers a_validators]. rewrite EV. unfold bind.
  rewrite !(question P lid vals d _ x w HW HN HS). unfold bind. cbn [run_coercers].
  split; [|split; [|split]].
  - intros e w' E. rewrite E. rewrite andb_false_r. reflexivity.
  - intros l w' E I EL. rewrite E.
    assert (EM : ty_mem P (type_of P l) (lit_types P lid vals w') = true).
    { apply mem_exact. unfold lit_types. apply in_or_app. left. apply in_map. exact I. }
    cbn [type_check]. rewrite EM. replace (coerced_ok d TCExact) with true by (destruct HC as [-> | ->]; reflexivity).
    cbn. unfold bind, literal_validator. rewrite EM. cbn.
    replace (lit_mem P vals l) with true; [reflexivity|]. symmetry. unfold lit_mem. apply existsb_exists. exists l. split; [assumption|].
    rewrite EL. destruct (ty_eqP P (type_of P l) (type_of P l)); [reflexivity|congruence].
  - intros y w' E HY. rewrite E. destruct (coerced_ok d _); [|repeat eexists].
    cbn. unfold bind, literal_validator.
    replace (lit_mem P vals y) with false; [repeat eexists|]. symmetry. unfold lit_mem. destruct (existsb _ vals) eqn:EX; [|reflexivity].
    apply existsb_exists in EX. destruct EX as (l & I & EL). apply andb_prop in EL. destruct EL as [E1 E2].
    destruct (ty_eqP P (type_of P y) (type_of P l)) as [ET|]; [|discriminate]. rewrite (HY l I (eq_sym ET)) in E2. discriminate.
  - eexists. reflexivity.
Qed.
