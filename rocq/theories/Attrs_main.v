(** Attrs_main.v -- proofs of the properties stated in Props_Attrs.v: C139: fields and attributes with the names of methods *)

From Verif Require Import Base Py Select Filler Classes Runtime Record Spec_Record Attrs Spec_Attrs Demo DemoRt DemoCls.
From Verif Require Import Dict_proofs Record_proofs Select_proofs.
Open Scope string_scope.
Open Scope list_scope.

Section Proofs.
Context {obj ty W : Type} (R : Rt obj ty W).
Notation P := (rt_py R).
Notation cls := (@cls obj ty W).
Context (ctx : ty -> option cls) (K : Calls obj W).
Implicit Types (c : cls) (x y v : obj) (w : W).

Lemma bind_same : forall {A B} (m m' : M W A) (k k' : A -> M W B) w,
  m w = m' w -> (forall a w1, m' w = (Ok a, w1) -> k a w1 = k' a w1) -> (let* a := m in k a) w = (let* a := m' in k' a) w.
Proof. intros A B m m' k k' w E H. unfold bind. rewrite E. destruct (m' w) as [[a|e] w1]; [apply H; reflexivity|reflexivity]. Qed.
Lemma with_class_same : forall {A} x (k k' : cls -> M W A) w,
  (forall i c, lookup R w x = Some i -> ctx (i_cls i) = Some c -> k c w = k' c w) -> with_class R ctx x k w = with_class R ctx x k' w.
Proof.
  intros A x k k' w H. unfold with_class, class_of. destruct (lookup R w x) as [i|] eqn:E; [|reflexivity].
  destruct (ctx (i_cls i)) as [c|] eqn:EC; [|reflexivity]. eapply H; eauto.
Qed.

Lemma on_class_lib : forall c k, plain_names c -> In k library_names -> on_class c k = Library.
Proof. intros c k H HK. unfold on_class. replace (dmem k (c_fields c)) with false; [reflexivity|]. symmetry. apply dmem_false. apply H. exact HK. Qed.
Lemma own_field_no : forall c k, plain_names c -> In k library_names -> own_field R c k = false.
Proof.
  intros c k H HK. unfold own_field. destruct (dget k (c_fields c)) as [f|] eqn:E; [|reflexivity].
  exfalso. apply (H k HK). eapply dget_some_key. exact E.
Qed.
Lemma on_instance_lib : forall c x k w, plain_names c -> plain_attrs R w x -> In k library_names -> on_instance R c x k w = (Ok Library, w).
Proof.
  intros c x k w H HA HK. unfold on_instance. rewrite (on_class_lib c k H HK). destruct (lookup R w x) as [i|] eqn:E; [|reflexivity].
  destruct (dget k (i_dict i)) as [v|] eqn:ED; [|reflexivity]. exfalso. apply (HA i k E HK). eapply dget_some_key. exact ED.
Qed.
Lemma instance_call : forall {A} c x k w (lib : M W A) args conv, plain_names c -> plain_attrs R w x -> In k library_names ->
  (let* m := on_instance R c x k in call_attr K m lib args conv) w = lib w.
Proof. intros A c x k w lib args conv H HA HK. unfold bind. rewrite on_instance_lib by assumption. reflexivity. Qed.

Ltac lib := repeat (first [left; reflexivity|right]).

Lemma frozen_lib : forall c, plain_names c -> frozen_flag R c = c_frozen c.
Proof. intros c H. unfold frozen_flag. rewrite own_field_no; [reflexivity|exact H|lib]. Qed.
Lemma ordered_lib : forall c, plain_names c -> ordered_flag R c = c_ordered c.
Proof. intros c H. unfold ordered_flag. rewrite own_field_no; [reflexivity|exact H|lib]. Qed.
Lemma class_is_frozen_lib : forall c, plain_names c -> class_is_frozen R K c = ret (c_frozen c).
Proof. intros c H. unfold class_is_frozen. rewrite on_class_lib by (assumption || lib). cbn [call_attr]. rewrite frozen_lib by assumption. reflexivity. Qed.

Hypothesis PL : forall t c, ctx t = Some c -> plain_names c.

Lemma to_dict_lib : forall x a w, plain_attrs R w x -> to_dict_n R ctx K x a w = to_dict R ctx x a sel_empty w.
Proof.
  intros x a w HA. unfold to_dict_n. transitivity (with_class R ctx x (fun _ => to_dict R ctx x a sel_empty) w).
  - apply with_class_same. intros i c E EC. apply PL in EC. rewrite instance_call by (assumption || lib). rewrite instance_call by (assumption || lib). reflexivity.
  - unfold to_dict, with_class. destruct (class_of R ctx x w) eqn:E; reflexivity.
Qed.
Lemma repr_lib : forall x a w, plain_attrs R w x -> repr_n R ctx K x a w = repr R ctx x a w.
Proof.
  intros x a w HA. unfold repr_n, repr. apply with_class_same. intros i c _ _. apply bind_same; [apply to_dict_lib; exact HA|]. reflexivity.
Qed.
Lemma hash_lib : forall x w, plain_attrs R w x -> hash_n R ctx K x w = record_hash R ctx x w.
Proof.
  intros x w HA. unfold hash_n, record_hash. destruct (lookup R w x) as [i|] eqn:E; [|reflexivity].
  destruct (ctx (i_cls i)) as [c|] eqn:EC; [|reflexivity]. apply PL in EC. destruct (negb (c_frozen c)); [reflexivity|].
  replace (dmem "_hash" (c_fields c)) with false by (symmetry; apply dmem_false; apply EC; lib).
  destruct (i_hash i); try reflexivity. unfold bind. rewrite to_dict_lib by exact HA.
  destruct (to_dict R ctx x no_args sel_empty w) as [[d|e] w1]; reflexivity.
Qed.
Lemma eq_lib : forall x y w,
  plain_attrs R w x ->
  (forall h w1, record_hash R ctx x w = (Ok h, w1) -> plain_attrs R w1 y) ->
  (forall h h' w1 w2, record_hash R ctx x w = (Ok h, w1) -> record_hash R ctx y w1 = (Ok h', w2) -> plain_attrs R w2 x) ->
  eq_n R ctx K x y w = record_eq R ctx x y w.
Proof.
  intros x y w HA HB HC. unfold eq_n, record_eq. apply with_class_same. intros i c E EC. apply PL in EC.
  destruct (negb (ty_eqb P (type_of P x) (type_of P y))); [reflexivity|]. rewrite class_is_frozen_lib by exact EC.
  unfold bind at 1. cbn [ret].
  assert (LAST : forall w1, plain_attrs R w1 x ->
    (let* m := on_instance R c x "_fields" in
     let* names := (match m with Value v => m_iter R v | _ => ret (keys (c_fields c)) end) in fields_equal R names x y) w1
    = fields_equal R (keys (c_fields c)) x y w1).
  { intros w1 H1. unfold bind at 1. rewrite on_instance_lib by (assumption || lib). reflexivity. }
  destruct (c_frozen c).
  - apply bind_same.
    + apply bind_same; [apply hash_lib; exact HA|]. intros h w1 E1. apply bind_same; [apply hash_lib; eapply HB; exact E1|]. reflexivity.
    + intros same w1 ES. destruct (negb same); [reflexivity|]. apply LAST.
      apply bind_ok in ES. destruct ES as (h & wa & E1 & ES). apply bind_ok in ES. destruct ES as (h' & wb & E2 & ES). injection ES as _ <-. eapply HC; eassumption.
  - unfold bind at 1. cbn [ret]. cbn [negb]. apply LAST. exact HA.
Qed.
Lemma cmp_lib : forall op x y w, plain_attrs R w x -> cmp_method_n R ctx K op x y w = cmp_method R ctx op x y w.
Proof.
  intros op x y w HA. unfold cmp_method_n, cmp_method, class_of. destruct (lookup R w x) as [i|] eqn:E; [|reflexivity].
  destruct (ctx (i_cls i)) as [c|] eqn:EC; [|reflexivity]. apply PL in EC.
  unfold bind at 1. rewrite on_instance_lib by (assumption || lib). cbn [call_attr]. rewrite ordered_lib by exact EC.
  destruct (c_ordered c); cbn [negb]; [|reflexivity]. unfold bind at 1. cbn [ret]. destruct (negb (isinstance P y (type_of P x))); reflexivity.
Qed.

Section Class.
Variable c : cls.
Hypothesis PC : plain_names c.

Lemma alloc_lib : forall vs w, alloc_n R c vs w = alloc R c vs w.
Proof.
  intros vs w. unfold alloc_n, alloc. rewrite frozen_lib by exact PC. replace (dmem "_hash" (c_fields c)) with false by (symmetry; apply dmem_false; apply PC; lib).
  destruct (c_frozen c); reflexivity.
Qed.
Lemma finish_lib : forall p vs w, (forall k, In k (keys vs) -> In k (keys (c_fields c))) -> finish_n R K c p vs w = finish R c p vs w.
Proof.
  intros p vs w HV. unfold finish_n, finish. apply bind_same; [apply alloc_lib|]. intros self w1 E.
  assert (HA : plain_attrs R w1 self).
  { intros i k EL HK. pose proof (lookup_alloc R c vs w) as LA. unfold alloc in E. injection E as <- <-. cbn [alloc snd] in LA. rewrite LA in EL. injection EL as <-. cbn.
    intro HI. apply (PC k HK). apply HV. exact HI. }
  rewrite (bind_same _ (ret Library) _ (fun _ => let* r := c_post_new c self in let* t := truth R r in ret (if t then r else self)) w1).
  - reflexivity.
  - apply on_instance_lib; [exact PC|exact HA|lib].
  - intros a w2 H. injection H as <- <-. reflexivity.
Qed.
Lemma build_lib : forall p kw w, build_n R K c p kw w = build R c p kw w.
Proof.
  intros p kw w. unfold build_n, build. destruct (forallb (fun k => dmem k (c_fields c)) (keys kw)) eqn:EK; cbn [negb]; [|reflexivity].
  apply forallb_known in EK. apply bind_same; [reflexivity|]. intros [vs|] w1 EF; [|reflexivity].
  destruct (negb (forallb (fun k => dmem k kw) (required_keys (c_fields c)))); [reflexivity|]. apply bind_same; [reflexivity|]. intros ds w2 ED.
  apply finish_lib. apply fill_kwargs_filled, filled_keys in EF. apply fill_defaults_defaulted, defaulted_keys in ED.
  intros k HI. rewrite keys_app in HI. apply in_app_or in HI. destruct HI as [HI|HI].
  - rewrite EF in HI. apply EK. exact HI.
  - rewrite ED in HI. apply (Permutation_in _ (Permutation_sym (set_order_perm R w1 _))) in HI. apply filter_In in HI. destruct HI as [HI _].
    unfold optional_keys in HI. apply filter_In in HI. apply HI.
Qed.

Lemma update_nothing : forall (d : dict obj) w, update_dict R d [] [] w = (Ok d, w).
Proof. reflexivity. Qed.
Lemma from_instance_lib : forall mk mk' v w, (forall d w, mk d w = mk' d w) -> from_instance_n R K mk c v w = from_instance_with R mk' c sel_empty v [] [] w.
Proof.
  intros mk mk' v w HM. unfold from_instance_n, from_instance_with. rewrite class_is_frozen_lib by exact PC. unfold bind at 1. cbn [ret].
  change (negb (fst (sel_truth (sel_empty (A := obj))))) with true. cbn [andb]. rewrite !andb_true_r.
  destruct (c_frozen c && isinstance P v (c_ty c)); [reflexivity|]. rewrite on_class_lib by (assumption || lib). cbn [call_attr].
  apply bind_same; [reflexivity|]. intros d w1 _. unfold bind at 1. rewrite update_nothing. unfold bind, lift. cbn. apply HM.
Qed.
Lemma parse_lib : forall mk mk' v w, (forall d w, mk d w = mk' d w) -> parse_n R K mk c v w = parse_with R mk' c v w.
Proof.
  intros mk mk' v w HM. unfold parse_n, parse_with. apply bind_same; [|reflexivity].
  assert (RP : forall p w, run_parser_n R K mk c p v w = run_parser R mk' c p v w).
  { intros p w1. destruct p as [| | |f]; cbn [run_parser_n run_parser].
    - apply from_instance_lib. exact HM.
    - unfold from_json_with. repeat (apply bind_same; [reflexivity|]; intros). apply HM.
    - unfold from_mapping_with. repeat (apply bind_same; [reflexivity|]; intros). apply HM.
    - reflexivity. }
  revert w. induction (c_parsers c) as [|p r IH]; intro w; [reflexivity|]. cbn [attempt_parsers_n attempt_parsers]. rewrite RP.
  destruct (run_parser R mk' c p v w) as [[x|e] w1].
  - apply bind_same; [apply IH|reflexivity].
  - destruct (is_Exception e); [apply IH|reflexivity].
Qed.
Lemma call_cls_same : forall nw nw' pos kw w, (forall p k w, nw p k w = nw' p k w) -> call_cls R nw c pos kw w = call_cls R nw' c pos kw w.
Proof.
  intros nw nw' pos kw w H. unfold call_cls. destruct (dmem "cls" kw); [reflexivity|]. apply bind_same; [|reflexivity].
  destruct pos, (dget "arg" kw); try reflexivity; apply H.
Qed.
Lemma new_lib : forall fuel arg kw w, new_n R K fuel c arg kw w = new R fuel c arg kw w.
Proof.
  induction fuel as [|n IH]; intros arg kw w; [reflexivity|]. destruct arg as [a|]; cbn [new_n new]; [|apply build_lib].
  apply bind_same.
  - destruct kw; [|reflexivity]. destruct (c_unary c); [|reflexivity]. unfold catch_parse_failure. rewrite on_class_lib by (assumption || lib). cbn [call_attr].
    rewrite (parse_lib _ (call_cls R (new R n c) c None)); [reflexivity|]. intros d w1. apply call_cls_same. exact IH.
  - intros p w1 _. destruct (negb _); [reflexivity|]. destruct (required_keys (c_fields c)) as [|k r]; [reflexivity|].
    destruct (dmem k kw); [reflexivity|]. apply build_lib.
Qed.
Lemma construct_lib : forall fuel pos kw w, construct_n R K fuel c pos kw w = construct R fuel c pos kw w.
Proof. intros. apply call_cls_same. intros. apply new_lib. Qed.
End Class.

Lemma copy_lib : forall fuel x w, plain_attrs R w x -> copy_n R ctx K fuel x w = copy R ctx fuel x w.
Proof.
  intros fuel x w HA. unfold copy_n, copy. apply with_class_same. intros i c E EC. apply PL in EC.
  unfold bind at 1. rewrite on_instance_lib by (assumption || lib). cbn [call_attr]. unfold bind. cbn [ret]. rewrite frozen_lib by exact EC.
  destruct (c_frozen c) eqn:EF; [reflexivity|]. rewrite on_class_lib by (assumption || lib). cbn [call_attr]. unfold from_instance. apply from_instance_lib; [exact EC|].
  intros d w1. apply construct_lib. exact EC.
Qed.
Lemma deepcopy_lib : forall fuel x w, plain_attrs R w x ->
  (forall d w1 vs w2, to_dict R ctx x no_args sel_empty w = (Ok d, w1) -> deep_copy R (dvalues d) w1 = (Ok vs, w2) -> plain_attrs R w2 x) ->
  deepcopy_n R ctx K fuel x w = deepcopy R ctx fuel x w.
Proof.
  intros fuel x w HA HB. unfold deepcopy_n, deepcopy. apply with_class_same. intros i c E EC. apply PL in EC.
  apply bind_same; [apply to_dict_lib; exact HA|]. intros d w1 ED. apply bind_same; [reflexivity|]. intros vs w2 EV.
  rewrite instance_call; [|exact EC|eapply HB; eassumption|lib]. apply construct_lib. exact EC.
Qed.
End Proofs.

Lemma c139_construct_partial_proof : forall {obj ty W} (R : Rt obj ty W) K c,
  plain_names c ->
  forall fuel pos kw w, construct_n R K fuel c pos kw w = construct R fuel c pos kw w.
Proof.
 intros obj ty W R K c HC fuel pos kw w. apply construct_lib. exact HC. Qed.

Lemma c139_records_partial_proof : forall {obj ty W} (R : Rt obj ty W) ctx K x w,
  (forall t c, ctx t = Some c -> plain_names c) -> plain_attrs R w x ->
  (forall a, to_dict_n R ctx K x a w = to_dict R ctx x a sel_empty w) /\
  (forall a, repr_n R ctx K x a w = repr R ctx x a w) /\
  hash_n R ctx K x w = record_hash R ctx x w /\
  (forall op y, cmp_method_n R ctx K op x y w = cmp_method R ctx op x y w) /\
  (forall fuel, copy_n R ctx K fuel x w = copy R ctx fuel x w).
Proof.
  intros obj ty W R ctx K x w HC HA. repeat split; intros; [apply to_dict_lib|apply repr_lib|apply hash_lib|apply cmp_lib|apply copy_lib]; assumption.
Qed.

Lemma c139_eq_partial_proof : forall {obj ty W} (R : Rt obj ty W) ctx K x y w,
  (forall t c, ctx t = Some c -> plain_names c) -> plain_attrs R w x ->
  (forall h w1, record_hash R ctx x w = (Ok h, w1) -> plain_attrs R w1 y) ->
  (forall h h' w1 w2, record_hash R ctx x w = (Ok h, w1) -> record_hash R ctx y w1 = (Ok h', w2) -> plain_attrs R w2 x) ->
  eq_n R ctx K x y w = record_eq R ctx x y w.
Proof.
 intros obj ty W R ctx K x y w HC HA HB HD. apply eq_lib; assumption. Qed.

Lemma c139_deepcopy_partial_proof : forall {obj ty W} (R : Rt obj ty W) ctx K fuel x w,
  (forall t c, ctx t = Some c -> plain_names c) -> plain_attrs R w x ->
  (forall d w1 vs w2, to_dict R ctx x no_args sel_empty w = (Ok d, w1) -> deep_copy R (dvalues d) w1 = (Ok vs, w2) -> plain_attrs R w2 x) ->
  deepcopy_n R ctx K fuel x w = deepcopy R ctx fuel x w.
Proof.
 intros obj ty W R ctx K fuel x w HC HA HB. apply deepcopy_lib; assumption. Qed.

Lemma in_class : forall {obj ty W} (R : Rt obj ty W) ctx {A} x (k : cls -> M W A) w i c,
  lookup R w x = Some i -> ctx (i_cls i) = Some c -> with_class R ctx x k w = k c w.
Proof. intros obj ty W R ctx A x k w i c E EC. unfold with_class, class_of. rewrite E, EC. reflexivity. Qed.
Lemma to_dict_shadowed : forall {obj ty W} (R : Rt obj ty W) ctx K x w i c v e,
  lookup R w x = Some i -> ctx (i_cls i) = Some c -> dget "to_dict" (i_dict i) = Some v -> (forall w, call_value K v [] w = (Raise e, w)) ->
  forall a, to_dict_n R ctx K x a w = (Raise e, w).
Proof.
  intros obj ty W R ctx K x w i c v e E EC EV HC a. unfold to_dict_n. rewrite (in_class R ctx x _ w i c E EC).
  unfold bind at 1, on_instance. rewrite E, EV. cbn [call_attr]. unfold bind. rewrite HC. reflexivity.
Qed.

Lemma c139_to_dict_refuted_proof : forall {obj ty W} (R : Rt obj ty W) ctx K x w i c v e,
  lookup R w x = Some i -> ctx (i_cls i) = Some c -> dget "to_dict" (i_dict i) = Some v ->
  (forall w, call_value K v [] w = (Raise e, w)) ->
  (forall a, repr_n R ctx K x a w = (Raise e, w)) /\
  (forall fuel, deepcopy_n R ctx K fuel x w = (Raise e, w)) /\
  (c_frozen c = true -> i_hash i = SNone -> ~ In "_hash" (keys (c_fields c)) -> hash_n R ctx K x w = (Raise e, w)).
Proof.
  intros obj ty W R ctx K x w i c v e E EC EV HC. pose proof (to_dict_shadowed R ctx K x w i c v e E EC EV HC) as TD. repeat split.
  - intro a. unfold repr_n. rewrite (in_class R ctx x _ w i c E EC). unfold bind at 1. rewrite TD. reflexivity.
  - intro fuel. unfold deepcopy_n. rewrite (in_class R ctx x _ w i c E EC). unfold bind at 1. rewrite TD. reflexivity.
  - intros EF EH NH. unfold hash_n. rewrite E, EC, EF, EH. apply dmem_false in NH. rewrite NH. cbn [negb]. unfold bind. rewrite TD. reflexivity.
Qed.

Lemma construct_n_plain : forall {obj ty W} (R : Rt obj ty W) K n c kw w, no_reserved kw ->
  construct_n R K (S n) c None kw w = build_n R K c (none R) kw w.
Proof.
  intros obj ty W R K n c kw w HR. unfold construct_n, call_cls. unfold dmem.
  rewrite (reserved_get kw "cls"), (reserved_get kw "arg"), (reserved_get kw "self") by (unfold reserved; auto).
  cbn [new_n]. unfold bind. fold (none R). destruct (build_n R K c (none R) kw w) as [[x|e] w1]; [|reflexivity].
  rewrite andb_false_r. reflexivity.
Qed.
(** what build_n gives to the new record *)
Lemma build_n_ok : forall {obj ty W} (R : Rt obj ty W) K c kw w x w', build_n R K c (none R) kw w = (Ok x, w') ->
  exists vs w2, (forall k, In k (keys (c_fields c)) -> In k (keys vs)) /\ finish_n R K c (none R) vs w2 = (Ok x, w').
Proof.
  intros obj ty W R K c kw w x w' H. unfold build_n in H.
  destruct (forallb (fun k => dmem k (c_fields c)) (keys kw)) eqn:EK; cbn [negb] in H; [|discriminate].
  apply bind_ok in H. destruct H as ([vs|] & w1 & EF & H); [|exfalso; exact (fill_kwargs_none R c kw w w1 EF)].
  destruct (forallb (fun k => dmem k kw) (required_keys (c_fields c))) eqn:EC; cbn [negb] in H; [|discriminate].
  apply forallb_complete in EC. apply bind_ok in H. destruct H as (ds & w2 & ED & H). exists (vs ++ ds), w2. split; [|exact H].
  apply fill_kwargs_filled, filled_keys in EF. apply fill_defaults_defaulted, defaulted_keys in ED.
  intros k HI. rewrite keys_app. apply in_or_app. destruct (in_dec string_dec k (keys kw)) as [HK|HK]; [left; rewrite EF; exact HK|right].
  rewrite ED. apply (Permutation_in _ (set_order_perm R w1 _)). apply filter_In. split; [|apply negb_true_iff, dmem_false; exact HK].
  unfold optional_keys. apply filter_In. split; [exact HI|]. apply negb_true_iff, smem_false. intro HR. apply HK. apply EC. exact HR.
Qed.
Lemma lookup_alloc_n : forall {obj ty W} (R : Rt obj ty W) c vs w x w', alloc_n R c vs w = (Ok x, w') ->
  exists i, lookup R w' x = Some i /\ i_cls i = c_ty c /\
    i_dict i = (if frozen_flag R c && dmem "_hash" (c_fields c) then dset "_hash" (o_none (rt_py R)) vs else vs).
Proof.
  intros obj ty W R c vs w x w' H. unfold alloc_n in H. injection H as <- <-. eexists. split.
  - unfold lookup. rewrite deref_ref, heap_set, nth_error_app2, Nat.sub_diag by lia. reflexivity.
  - destruct (frozen_flag R c), (dmem "_hash" (c_fields c)); split; reflexivity.
Qed.

Lemma c139_post_new_refuted_proof : forall {obj ty W} (R : Rt obj ty W) K c n kw w x w',
  In "post_new" (keys (c_fields c)) -> no_reserved kw ->
  (forall v w, exists m, call_value K v [] w = (Raise (Exc TypeError m None), w)) ->
  construct_n R K (S n) c None kw w <> (Ok x, w').
Proof.
  intros obj ty W R K c n kw w x w' HF HR HC H. rewrite construct_n_plain in H by exact HR. apply build_n_ok in H.
  destruct H as (vs & w2 & HV & H). unfold finish_n in H. apply bind_ok in H. destruct H as (self & w3 & EA & H).
  apply lookup_alloc_n in EA. destruct EA as (i & EL & _ & ED).
  assert (EG : exists v, dget "post_new" (i_dict i) = Some v).
  { apply HV in HF. apply in_keys_get in HF. destruct HF as [v EV]. rewrite ED. destruct (_ && _); [|eauto]. rewrite dget_dset_other by discriminate. eauto. }
  destruct EG as [v EV].
  match type of H with context [match ?m with (_, _) => _ end] => assert (EM : exists m', m = (Raise (Exc TypeError m' None), w3)) end.
  { unfold bind at 1, on_instance. rewrite EL, EV. cbn [call_attr]. destruct (HC v w3) as [m Em]. exists m. unfold bind. rewrite Em. reflexivity. }
  destruct EM as [m Em]. rewrite Em in H. cbn in H. unfold bind, none in H. rewrite truth_none in H. discriminate.
Qed.

Lemma c139_hash_refuted_proof : forall {obj ty W} (R : Rt obj ty W) K c n kw w x w',
  In "_hash" (keys (c_fields c)) -> ~ In "post_new" (keys (c_fields c)) -> c_frozen c = true -> no_reserved kw -> known c kw ->
  (forall y w, c_post_new c y w = (Ok (o_none (rt_py R)), w)) ->
  construct_n R K (S n) c None kw w = (Ok x, w') ->
  getattr R x "_hash" w' = (Ok (o_none (rt_py R)), w').
Proof.
  intros obj ty W R K c n kw w x w' HF NP EF HR HK HPN H. rewrite construct_n_plain in H by exact HR.
  unfold build_n in H. apply forallb_known in HK as EK. rewrite EK in H. cbn [negb] in H.
  apply bind_ok in H. destruct H as ([vs|] & w1 & E1 & H); [|exfalso; exact (fill_kwargs_none R c kw w w1 E1)].
  destruct (negb (forallb _ _)); [discriminate|]. apply bind_ok in H. destruct H as (ds & w2 & E2 & H).
  assert (NV : dget "post_new" (vs ++ ds) = None).
  { apply dget_None. rewrite keys_app. intro HI. apply in_app_or in HI. apply NP.
    apply fill_kwargs_filled, filled_keys in E1. apply fill_defaults_defaulted, defaulted_keys in E2. destruct HI as [HI|HI].
    - rewrite E1 in HI. apply HK. exact HI.
    - rewrite E2 in HI. apply (Permutation_in _ (Permutation_sym (set_order_perm R w1 _))) in HI. apply filter_In in HI. destruct HI as [HI _].
      unfold optional_keys in HI. apply filter_In in HI. apply HI. }
  unfold finish_n in H. apply bind_ok in H. destruct H as (self & w3 & EA & H).
  apply lookup_alloc_n in EA. destruct EA as (i & EL & _ & ED). unfold frozen_flag in ED. rewrite EF, orb_true_r in ED. apply dmem_In in HF. rewrite HF in ED. cbn [andb] in ED.
  assert (EM : (let* m := on_instance R c self "post_new" in let* r := call_attr K m (c_post_new c self) [] ret in
                let* t := truth R r in ret (if t then r else self)) w3 = (Ok self, w3)).
  { unfold bind at 1, on_instance. rewrite EL, ED, dget_dset_other by discriminate. rewrite NV. unfold on_class. apply dmem_false in NP. rewrite NP. cbn [call_attr].
    unfold bind. rewrite HPN, truth_none. reflexivity. }
  rewrite EM in H. cbn beta iota in H. rewrite is_none_none in H. injection H as <- <-.
  unfold getattr. rewrite EL, ED, dget_dset_same. reflexivity.
Qed.

Lemma c139_hash_field_refuted_proof : forall {obj ty W} (R : Rt obj ty W) ctx K x w i c,
  lookup R w x = Some i -> ctx (i_cls i) = Some c -> c_frozen c = true -> In "_hash" (keys (c_fields c)) ->
  (dget "_hash" (i_dict i) = Some (o_none (rt_py R)) -> forall h w' j, hash_n R ctx K x w = (Ok h, w') ->
     lookup R w' x = Some j -> getattr R x "_hash" w' = (Ok (int_obj K h), w')) /\
  (forall v, dget "_hash" (i_dict i) = Some v -> v <> o_none (rt_py R) ->
     match int_of R v with
     | Some z => hash_n R ctx K x w = (Ok z, w)
     | None => exists m, hash_n R ctx K x w = (Raise (Exc TypeError m None), w)
     end) /\
  (dget "_hash" (i_dict i) = None -> exists m, hash_n R ctx K x w = (Raise (Exc TypeError m None), w)).
Proof.
  intros obj ty W R ctx K x w i c EL EC EF HI. apply dmem_In in HI. split; [|split].
  - intros ED h w' j H HJ. unfold hash_n in H. rewrite EL, EC, EF, HI, ED in H. cbn [negb] in H. replace (is_none R (o_none (rt_py R))) with true in H by (symmetry; apply (is_none_none R)).
    apply bind_ok in H. destruct H as (hs & w1 & _ & H). injection H as <- <-.
    destruct (lookup R w1 x) as [j1|] eqn:E1.
    + unfold getattr. rewrite (lookup_store_same R x _ j1 w1 E1). cbn [i_dict]. rewrite dget_dset_same. reflexivity.
    + congruence.
  - intros v ED NV. unfold hash_n. rewrite EL, EC, EF, HI, ED. cbn [negb].
    replace (is_none R v) with false.
    + destruct (int_of R v); [reflexivity|]. eexists. reflexivity.
    + symmetry. unfold is_none. change (none R) with (o_none (rt_py R)). destruct (py_isP (rt_py R) v (o_none (rt_py R))); [contradiction|reflexivity].
  - intro ED. unfold hash_n. rewrite EL, EC, EF, HI, ED. eexists. reflexivity.
Qed.

Lemma c139_copy_refuted_proof : forall {obj ty W} (R : Rt obj ty W) ctx K x w i c,
  lookup R w x = Some i -> ctx (i_cls i) = Some c -> c_frozen c = false ->
  In "from_instance" (keys (c_fields c)) -> ~ In "_frozen" (keys (c_fields c)) ->
  ~ In "is_frozen" (keys (c_fields c)) -> ~ In "is_frozen" (keys (i_dict i)) ->
  forall fuel, copy_n R ctx K fuel x w = (Raise (Exc TypeError "'RecordField' object is not callable" None), w).
Proof.
  intros obj ty W R ctx K x w i c EL EC EF HI NF NI NJ fuel. unfold copy_n, with_class, class_of. rewrite EL, EC.
  unfold bind at 1, on_instance. rewrite EL. apply dget_None in NJ. rewrite NJ. unfold on_class.
  apply dmem_false in NI. rewrite NI. cbn [call_attr].
  assert (FF : frozen_flag R c = false).
  { unfold frozen_flag, own_field. apply dget_None in NF. rewrite NF, EF. reflexivity. }
  rewrite FF. unfold bind, ret. apply dmem_In in HI. rewrite HI. reflexivity.
Qed.

Lemma c139_frozen_refuted_proof : forall {obj ty W} (R : Rt obj ty W) ctx K x y w i c f,
  lookup R w x = Some i -> ctx (i_cls i) = Some c -> c_frozen c = false ->
  dget "_frozen" (c_fields c) = Some f -> f_owner f = c_ty c ->
  ~ In "is_frozen" (keys (c_fields c)) -> ~ In "is_frozen" (keys (i_dict i)) -> type_of (rt_py R) x = type_of (rt_py R) y ->
  (forall fuel, copy_n R ctx K fuel x w = (Ok x, w)) /\
  (exists m, eq_n R ctx K x y w = (Raise (Exc TypeError m None), w)).
Proof.
  intros obj ty W R ctx K x y w i c f E EC EF EO OW NI ND ET.
  assert (FF : frozen_flag R c = true).
  { unfold frozen_flag, own_field. rewrite EO, OW. destruct (ty_eqP (rt_py R) (c_ty c) (c_ty c)); [reflexivity|congruence]. }
  apply dmem_false in NI. apply dget_None in ND. split.
  - intro fuel. unfold copy_n. rewrite (in_class R ctx x _ w i c E EC). unfold bind at 1, on_instance. rewrite E, ND. unfold on_class. rewrite NI. cbn [call_attr].
    rewrite FF. reflexivity.
  - exists "unhashable type". unfold eq_n. rewrite (in_class R ctx x _ w i c E EC). rewrite ET.
    destruct (ty_eqP (rt_py R) (type_of (rt_py R) y) (type_of (rt_py R) y)) as [_|N]; [|congruence]. cbn [negb].
    unfold class_is_frozen, on_class. rewrite NI. cbn [call_attr]. rewrite FF. unfold bind at 1. cbn [ret].
    unfold bind at 1 2. unfold hash_n at 1. rewrite E, EC, EF. reflexivity.
Qed.

Lemma c139_callable_refuted_proof : forall {obj ty W} (R : Rt obj ty W) K c,
  (In "is_frozen" (keys (c_fields c)) -> forall ctx x y w i,
     lookup R w x = Some i -> ctx (i_cls i) = Some c -> type_of (rt_py R) x = type_of (rt_py R) y ->
     eq_n R ctx K x y w = (Raise (Exc TypeError "'RecordField' object is not callable" None), w)) /\
  (In "parse" (keys (c_fields c)) -> forall n a w, c_unary c = true ->
     construct_n R K (S n) c (Some a) [] w = (Raise (Exc TypeError "'RecordField' object is not callable" None), w)).
Proof.
  intros obj ty W R K c. split.
  - intros HI ctx x y w i E EC ET. unfold eq_n. rewrite (in_class R ctx x _ w i c E EC). rewrite ET.
    destruct (ty_eqP (rt_py R) (type_of (rt_py R) y) (type_of (rt_py R) y)) as [_|N]; [|congruence]. cbn [negb].
    unfold class_is_frozen, on_class. apply dmem_In in HI. rewrite HI. reflexivity.
  - intros HI n a w EU. unfold construct_n, call_cls. cbn [dmem dget]. cbn [new_n]. rewrite EU. unfold on_class. apply dmem_In in HI. rewrite HI. reflexivity.
Qed.
