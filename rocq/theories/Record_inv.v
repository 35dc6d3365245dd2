(** Record_inv.v -- a property of effects that all user code has, and that is closed under
    sequencing and catching, is a property of every operation on records. *)
From Verif Require Import Base Dict_proofs Py Select Filler Filler_proofs Filler_inv Classes Runtime Record Record_proofs.

Lemma sel_apply_exception : forall {A} (s : sel A) d e, sel_apply s d = Raise e -> is_Exception e = true.
Proof.
  intros A s d e. unfold sel_apply, sel_call_mapping, sel_call. destruct (sel_truth s) as [b [a ma r mr n mn c]]. destruct (negb b); [cbn; discriminate|].
  assert (G : forall X (body : X -> dict A -> outcome unit * dict A),
     (forall x d e, fst (body x d) = Raise e -> is_Exception e = true) ->
     forall l d e d' x, for_each body l d = (Raise e, d', x) -> is_Exception e = true).
  { intros X body HB. induction l as [|y l IH]; intros d0 e0 d' x H; cbn in H; [discriminate|].
    specialize (HB y d0). destruct (body y d0) as [[u|e1] d1]; [eapply IH; exact H|]. injection H as <- <- <-. apply HB. reflexivity. }
  destruct (for_each do_remove (elements r) d) as [[[u1|e1] d1] x1] eqn:E1.
  2:{ cbn. intro H. injection H as <-. eapply G; [|exact E1]. intros k dd ee. unfold do_remove. destruct (dmem k dd); cbn; intro H; [discriminate|injection H as <-; reflexivity]. }
  destruct (for_each do_mremove (elements mr) d1) as [[[u2|e2] d2] x2] eqn:E2.
  2:{ cbn. intro H. injection H as <-. eapply G; [|exact E2]. intros k dd ee. cbn. discriminate. }
  destruct (for_each do_rename (elements n) d2) as [[[u3|e3] d3] x3] eqn:E3.
  2:{ cbn. intro H. injection H as <-. eapply G; [|exact E3]. intros [k1 k2] dd ee. unfold do_rename. destruct (dmem k2 dd); [|destruct (dget k1 dd)]; cbn; intro H; try discriminate; injection H as <-; reflexivity. }
  destruct (for_each do_mrename (elements mn) d3) as [[[u4|e4] d4] x4] eqn:E4.
  2:{ cbn. intro H. injection H as <-. eapply G; [|exact E4]. intros [k1 k2] dd ee. unfold do_mrename. destruct (negb (dmem k1 dd)); [|destruct (dmem k2 dd); [|destruct (dget k1 dd)]]; cbn; intro H; try discriminate; injection H as <-; reflexivity. }
  destruct (for_each do_add (elements a) d4) as [[[u5|e5] d5] x5] eqn:E5.
  2:{ cbn. intro H. injection H as <-. eapply G; [|exact E5]. intros [k v] dd ee. unfold do_add. destruct (dmem k dd); cbn; intro H; try discriminate; injection H as <-; reflexivity. }
  destruct (for_each do_madd (elements ma) d5) as [[[u6|e6] d6] x6] eqn:E6.
  2:{ cbn. intro H. injection H as <-. eapply G; [|exact E6]. intros [k v] dd ee. unfold do_madd. destruct (dmem k dd); cbn; discriminate. }
  cbn. discriminate.
Qed.

Section Inv.
Context {obj ty W : Type} (R : Rt obj ty W).
Notation P := (rt_py R).
Notation field := (@field obj ty W).
Notation cls := (@cls obj ty W).
Notation parser := (@parser obj W).
Context (ctx : ty -> option cls).
Variable Phi : W -> option exc -> W -> Prop.
Notation sat := (sat Phi).

(** the run time's operations on objects that are not the library's *)
Record objects_sat : Prop := {
  os_eq : forall x y, sat (v_eq R x y);
  os_ne : forall x y, sat (v_ne R x y);
  os_cmp : forall o x y, sat (v_cmp R o x y);
  os_ext_cmp : forall o x y, sat (ext_cmp R o x y);
  os_hash : forall x, sat (v_hash R x);
  os_attr : forall x k, sat (ext_attr R x k);
  os_repr : forall x, sat (v_repr R x);
  os_dumps : forall d, sat (json_dumps R d);
  os_truth : forall x, sat (truth R x);
  os_iter : forall m, sat (m_iter R m);
  os_item : forall m k, sat (m_item R m k);
  os_unpack : forall x, sat (unpack R x);
  os_as_dict : forall x, sat (as_dict R x);
  os_loads : forall x, sat (json_loads R x);
  os_deep : forall l, sat (deep_copy R l);
  os_pickle : forall l, sat (pickle_values R l)
}.

(** the user code of a class: fillers, default factories, parsers and post_new *)
Record class_sat (c : cls) : Prop := {
  cs_fill : forall k f v, dget k (c_fields c) = Some f -> sat (call P (f_filler f) v);
  cs_default : forall k f g, dget k (c_fields c) = Some f -> f_default f = DefFactory g -> sat g;
  cs_parser : forall p v, In (PUser p) (c_parsers c) -> sat (p v);
  cs_post : forall x, sat (c_post_new c x)
}.

(** [Phi] contains the two things the library does to the heap: allocating an instance, and
    filling in an empty hash slot *)
Definition alloc_sat : Prop := forall c vs, sat (alloc R c vs).
Definition build_ok_sat (c : cls) : Prop := forall p kw, sat (build R c p kw).
Definition hash_sat : Prop := forall w x i c w1 j z, lookup R w x = Some i -> ctx (i_cls i) = Some c -> c_frozen c = true -> i_hash i = SNone ->
  Phi w None w1 -> lookup R w1 x = Some j -> Phi w None (store R x (Inst (i_cls j) (i_dict j) (SHash z)) w1).

Hypothesis CL : closed_rel Phi.
Hypothesis OS : objects_sat.

Let sret := @sat_ret W Phi CL.
Let sraise := @sat_raise W Phi CL.
Let sbind := @sat_bind W Phi CL.
Let smap := @sat_mapM W Phi CL.

Lemma sat_lift : forall {A} (o : outcome A), (forall e, o = Raise e -> is_Exception e = true) -> sat (lift o).
Proof. intros A [a|e] H w; cbn; [apply CL|]. apply CL. apply H. reflexivity. Qed.

Lemma sat_if : forall {A} (b : bool) (m n : M W A), sat m -> sat n -> sat (if b then m else n).
Proof. intros A [] m n HM HN; assumption. Qed.

Lemma getattr_sat : forall x k, sat (getattr R x k).
Proof.
  intros x k w. unfold getattr. destruct (lookup R w x) as [i|]; [|apply (os_attr OS)].
  destruct (dget k (i_dict i)); [apply CL|apply (os_attr OS)].
Qed.

Lemma export_value_sat : forall a f v, sat (export_value R a f v).
Proof.
  intros a f v. unfold export_value. apply sat_if; [apply sret|]. destruct (x_default f); try apply sret.
  apply sbind; [apply (os_eq OS)|]. intro. apply sret.
Qed.

Definition defaults_sat (fs : list (@xfield obj W)) : Prop := forall f g, In f fs -> x_default f = DefFactory g -> sat g.

Lemma extract_one_sat : forall ok x a f, defaults_sat [f] -> sat (extract_one R ok x a f).
Proof.
  intros ok x a f HD w. unfold extract_one. destruct (export_field a f) as [[]|e] eqn:EF.
  - pose proof (getattr_sat x (x_name f) w) as HG. destruct (getattr R x (x_name f) w) as [[v|e] w1]; cbn [fst snd exc_of] in HG.
    + pose proof CL as (_ & _ & SEQ & _). eapply SEQ; [exact HG|]. apply sbind; [apply export_value_sat|]. intro. apply sret.
    + assert (CT : is_Exception e = true -> forall {A} (m : M W A), sat m -> Phi w (exc_of (fst (m w1))) (snd (m w1))).
      { intros EX A m HM. pose proof CL as (_ & _ & _ & CATCH). eapply CATCH; [exact EX|exact HG|apply HM]. }
      destruct (is_AttributeError e) eqn:EC; [|exact HG]. assert (EX := AttributeError_Exception e EC).
      destruct (negb (ok (x_name f))); [exact HG|]. destruct (e_defaults a); [|apply (CT EX _ (ret []) (sret _ []))].
      destruct (x_default f) as [|d|g] eqn:ED.
      * apply (CT EX _ (ret []) (sret _ [])).
      * apply (CT EX _ (ret [(x_name f, d)]) (sret _ _)).
      * apply (CT EX). apply sbind; [|intro; apply sret]. eapply HD; [left; reflexivity|exact ED].
  - apply CL.
  - cbn. apply CL. unfold export_field in EF. destruct (smem (x_name f) (e_white a)); [discriminate|].
    destruct (e_black a); [discriminate|]. injection EF as <-. reflexivity.
Qed.

Lemma extract_sat : forall ok x a fs, defaults_sat fs -> sat (extract R ok x a fs).
Proof.
  intros ok x a. induction fs as [|f r IH]; intro HD; cbn; [apply sret|].
  apply sbind; [apply extract_one_sat; intros f' g [<-|[]]; apply HD; left; reflexivity|]. intro.
  apply sbind; [apply IH; intros f' g HI; apply HD; right; assumption|]. intro. apply sret.
Qed.

Lemma extraction_defaults : forall (c : cls) s, (forall k f g, In (k, f) (c_fields c) -> f_default f = DefFactory g -> sat g) ->
  defaults_sat (map snd (extraction c s)).
Proof.
  intros c s HC.
  assert (INV : forall k f g, In (k, f) (extraction c s) -> x_default f = DefFactory g -> sat g).
  { set (Q := fun d : dict (@xfield obj W) => forall k f g, In (k, f) d -> x_default f = DefFactory g -> sat g).
    assert (SET : forall k d, Q d -> Q (dset k (mock_field k) d)).
    { intros k d HQ k' f g HI E. assert (HD : forall d, In (k', f) (dset k (mock_field k) d) -> f = mock_field k \/ In (k', f) d).
      { clear. induction d as [|[k1 v1] r IH]; cbn; intro H.
        - destruct H as [H|[]]. injection H as <- <-. left; reflexivity.
        - destruct (String.eqb k k1); cbn in H; destruct H as [H|H]; auto.
          + injection H as <- <-. auto.
          + apply IH in H. tauto. }
      apply HD in HI. destruct HI as [->|HI]; [discriminate|]. eapply HQ; eassumption. }
    assert (DEL : forall k d, Q d -> Q (ddel k d)).
    { intros k d HQ k' f g HI E. assert (HD : forall d : dict (@xfield obj W), In (k', f) (ddel k d) -> In (k', f) d).
      { clear. induction d as [|[k1 v1] r IH]; cbn; intro H; [assumption|]. destruct (String.eqb k k1); [auto|]. destruct H as [H|H]; auto. }
      apply HD in HI. eapply HQ; eassumption. }
    assert (FOLD : forall X (g : dict (@xfield obj W) -> X -> dict xfield) l d, (forall d x, Q d -> Q (g d x)) -> Q d -> Q (fold_left g l d)).
    { intros X g. induction l as [|x r IH]; intros d HG HQ; cbn; [assumption|]. apply IH; [assumption|]. apply HG. assumption. }
    assert (BASE : Q (map (fun kf => (fst kf, real_field (snd kf))) (c_fields c))).
    { intros k f g HI E. apply in_map_iff in HI. destruct HI as ([k1 f1] & E1 & HI). injection E1 as <- <-. eapply HC; [exact HI|exact E]. }
    change (Q (extraction c s)). unfold extraction. destruct (fst (sel_truth s)); [|exact BASE].
    apply FOLD; [intros; apply DEL; assumption|]. apply FOLD; [intros; apply SET; assumption|]. apply FOLD; [intros; apply SET; assumption|].
    apply FOLD; [intros d k HQ; destruct (dmem k (c_fields c)); [assumption|apply SET; assumption]|]. exact BASE. }
  intros f g HI E. apply in_map_iff in HI. destruct HI as ([k f'] & <- & HI). eapply INV; [exact HI|exact E].
Qed.

(** the default factories of [c], at least those that lookups find *)
Definition factories_sat (c : cls) : Prop := forall k f g, In (k, f) (c_fields c) -> f_default f = DefFactory g -> sat g.

Lemma to_dict_of_sat : forall c x a s, factories_sat c -> sat (to_dict_of R c x a s).
Proof. intros c x a s HC. apply sbind; [apply extract_sat; apply extraction_defaults; exact HC|]. intro. apply sret. Qed.

Lemma with_class_sat : forall {A} x (k : cls -> M W A), (forall t c, ctx t = Some c -> sat (k c)) -> sat (with_class R ctx x k).
Proof.
  intros A x k H w. unfold with_class, class_of. destruct (lookup R w x) as [i|]; [|cbn; apply CL; reflexivity].
  destruct (ctx (i_cls i)) as [c|] eqn:E; [|cbn; apply CL; reflexivity]. eapply H. exact E.
Qed.

Hypothesis FC : forall t c, ctx t = Some c -> factories_sat c.

Lemma to_dict_sat : forall x a s, sat (to_dict R ctx x a s).
Proof.
  intros x a s. apply with_class_sat. intros t c E. apply sbind; [apply to_dict_of_sat; eapply FC; exact E|].
  intro d. apply sat_lift. intros e. apply sel_apply_exception.
Qed.
Lemma to_json_sat : forall x a s, sat (to_json R ctx x a s).
Proof. intros. apply sbind; [apply to_dict_sat|]. intro. apply (os_dumps OS). Qed.
Lemma repr_sat : forall x a, sat (repr R ctx x a).
Proof.
  intros. apply with_class_sat. intros. apply sbind; [apply to_dict_sat|]. intro.
  apply sbind; [|intro; apply sret]. apply smap. intro. apply sbind; [apply (os_repr OS)|]. intro. apply sret.
Qed.

Section Hash.
Hypothesis HS : hash_sat.

Lemma record_hash_sat : forall x, sat (record_hash R ctx x).
Proof.
  intros x w. unfold record_hash. destruct (lookup R w x) as [i|] eqn:EL; [|apply (os_hash OS)].
  destruct (ctx (i_cls i)) as [c|] eqn:EC; [|apply (os_hash OS)].
  destruct (c_frozen c) eqn:EFz; cbn [negb]; [|cbn; apply CL; reflexivity].
  destruct (i_hash i) eqn:EH; try (cbn; apply CL; reflexivity).
  set (m := (let* d := to_dict R ctx x no_args sel_empty in let* hs := mapM (v_hash R) (dvalues d) in ret hs)).
  assert (HM : sat m).
  { apply sbind; [apply to_dict_sat|]. intro. apply sbind; [apply smap; apply (os_hash OS)|]. intro; apply sret. }
  specialize (HM w). unfold m, bind in HM |- *. destruct (to_dict R ctx x no_args sel_empty w) as [[d|e] w1]; [|exact HM].
  destruct (mapM (v_hash R) (dvalues d) w1) as [[hs|e] w2]; [|exact HM]. cbn in HM |- *.
  destruct (lookup R w2 x) as [j|] eqn:EJ; [|exact HM]. eapply HS; eassumption.
Qed.

Lemma fields_equal_sat : forall ks x y, sat (fields_equal R ks x y).
Proof.
  induction ks as [|k r IH]; intros x y; cbn; [apply sret|].
  apply sbind; [apply getattr_sat|]. intro. apply sbind; [apply getattr_sat|]. intro.
  apply sbind; [apply (os_ne OS)|]. intros []; [apply sret|apply IH].
Qed.

Lemma record_eq_sat : forall x y, sat (record_eq R ctx x y).
Proof.
  intros. apply with_class_sat. intros t c E. apply sat_if; [apply sret|]. apply sbind.
  - apply sat_if; [|apply sret]. apply sbind; [apply record_hash_sat|]. intro. apply sbind; [apply record_hash_sat|]. intro. apply sret.
  - intro. apply sat_if; [apply sret|]. apply fields_equal_sat.
Qed.
End Hash.

Lemma ordering_key_sat : forall x, sat (ordering_key R ctx x).
Proof. intros. apply with_class_sat. intros. apply smap. apply getattr_sat. Qed.

Lemma list_cmp_sat : forall o xs ys, sat (list_cmp R o xs ys).
Proof.
  intro o. induction xs as [|x xr IH]; intros [|y yr]; cbn; try apply sret.
  apply sbind; [apply sat_if; [apply sret|apply (os_eq OS)]|]. intros []; [apply IH|apply (os_cmp OS)].
Qed.

Lemma cmp_method_sat : forall o x y, sat (cmp_method R ctx o x y).
Proof.
  intros o x y w. unfold cmp_method. destruct (class_of R ctx x w) as [c|]; [|apply (os_ext_cmp OS)].
  destruct (negb (c_ordered c)); [cbn; apply CL; reflexivity|].
  destruct (negb (isinstance P y (type_of P x))); [cbn; apply CL|].
  apply sbind; [apply ordering_key_sat|]. intro. apply sbind; [apply ordering_key_sat|]. intro.
  apply sbind; [apply list_cmp_sat|]. intro. apply sret.
Qed.

Lemma compare_sat : forall o x y, sat (compare R ctx o x y).
Proof.
  intros. unfold compare. apply sat_if; (apply sbind; [apply cmp_method_sat|]); intros [b|]; try apply sret;
    (apply sbind; [apply cmp_method_sat|]); intros [b|]; try apply sret; apply sraise; reflexivity.
Qed.

(** ** Construction *)
Section Class.
Variable c : cls.
Hypothesis CS : class_sat c.

Lemma fill_kwargs_sat : forall p kw, sat (fill_kwargs R c p kw).
Proof.
  intros p. induction kw as [|[k v] r IH]; [apply sret|]. intro w. cbn. destruct (dget k (c_fields c)) as [f|] eqn:EF; [|cbn; apply CL; reflexivity].
  pose proof (cs_fill c CS k f v EF w) as HC. destruct (call P (f_filler f) v w) as [[y|e] w1]; cbn [fst snd exc_of] in HC.
  - pose proof CL as (_ & _ & SEQ & _). eapply SEQ; [exact HC|]. apply sbind; [apply IH|]. intro. apply sret.
  - destruct (is_Exception e) eqn:EX; cbn [negb]; [|exact HC].
    pose proof CL as (C1 & C2 & C3 & C4). destruct (is_none R p); cbn; eapply C4; try exact EX; try exact HC.
    + apply C2. unfold rewrap. destruct (exc_ctor (exc_cls e)); cbn; [exact EX|reflexivity|reflexivity].
    + apply C1.
Qed.

Lemma fill_defaults_sat : forall ks, sat (fill_defaults c ks).
Proof.
  induction ks as [|k r IH]; cbn; [apply sret|]. apply sbind.
  - destruct (dget k (c_fields c)) as [f|] eqn:EF; [|apply sraise; reflexivity].
    unfold make_default. destruct (f_default f) as [|d|g] eqn:ED; [apply sraise; reflexivity|apply sret|]. eapply (cs_default c CS); eassumption.
  - intro. apply sbind; [apply IH|]. intro. apply sret.
Qed.

Lemma finish_sat_by : forall p vs, sat (alloc R c vs) -> sat (finish R c p vs).
Proof.
  intros p vs AS. apply sbind; [apply AS|]. intros self w.
  set (m := (let* r := c_post_new c self in let* t := truth R r in ret (if t then r else self))).
  assert (HM : sat m).
  { apply sbind; [apply (cs_post c CS)|]. intro. apply sbind; [apply (os_truth OS)|]. intro. apply sret. }
  specialize (HM w). pose proof CL as (C1 & C2 & C3 & C4). destruct (m w) as [[s|e] w1]; cbn [fst snd exc_of] in HM.
  - destruct (is_none R p); cbn; [exact HM|]. eapply C3; [exact HM|]. apply C2. reflexivity.
  - destruct (is_Exception e) eqn:EX; cbn [negb]; [|exact HM]. eapply C4; [exact EX|exact HM|].
    apply sbind; [apply (os_truth OS)|]. intros []; [apply sret|apply sraise; exact EX].
Qed.

Lemma sbind_ok : forall {A B} (m : M W A) (k : A -> M W B), sat m ->
  (forall a w w', m w = (Ok a, w') -> Phi w' (exc_of (fst (k a w'))) (snd (k a w'))) -> sat (bind m k).
Proof.
  intros A B m k HM HK w. specialize (HM w). specialize (HK). unfold bind. destruct (m w) as [[a|e] w1] eqn:E; [|exact HM].
  cbn [fst snd exc_of] in HM. pose proof CL as (_ & _ & SEQ & _). eapply SEQ; [exact HM|]. eapply HK. exact E.
Qed.

Lemma build_sat_by :
  (forall p kw w vs w1 ks ds w2, fill_kwargs R c p kw w = (Ok (Some vs), w1) -> fill_defaults c ks w1 = (Ok ds, w2) -> sat (alloc R c (vs ++ ds))) ->
  build_ok_sat c.
Proof.
  intros AS p kw. unfold build. apply sat_if; [apply sraise; reflexivity|]. apply sbind_ok; [apply fill_kwargs_sat|]. intros [vs|] w w1 E1; [|apply sret].
  destruct (negb (forallb (fun k => dmem k kw) (required_keys (c_fields c)))); [apply sraise; reflexivity|].
  assert (HD := fill_defaults_sat (set_order R w1 (filter (fun k => negb (dmem k kw)) (optional_keys (c_fields c)))) w1).
  unfold bind at 1 2. destruct (fill_defaults c _ w1) as [[ds|e] w2] eqn:E2; [|exact HD].
  cbn [fst snd exc_of] in HD. pose proof CL as (_ & _ & SEQ & _). eapply SEQ; [exact HD|]. apply finish_sat_by. eapply AS; eassumption.
Qed.

Lemma build_sat : alloc_sat -> build_ok_sat c.
Proof.
  intros AS p kw. unfold build. apply sat_if; [apply sraise; reflexivity|]. apply sbind; [apply fill_kwargs_sat|]. intros [vs|]; [|apply sret].
  apply sat_if; [apply sraise; reflexivity|]. apply sbind; [intro w; apply fill_defaults_sat|]. intro. apply finish_sat_by. apply AS.
Qed.

Hypothesis FCc : factories_sat c.

Section Mk.
Variable mk : dict obj -> M W obj.
Hypothesis HMK : forall d, sat (mk d).

Lemma chain_keys_sat : forall ms seen, sat (chain_keys R ms seen).
Proof. induction ms as [|m r IH]; intro seen; cbn; [apply sret|]. apply sbind; [apply (os_iter OS)|]. intro. apply IH. Qed.
Lemma chain_item_sat : forall ms kw k, sat (chain_item R ms kw k).
Proof.
  induction ms as [|m r IH]; intros kw k; cbn.
  - destruct (dget k kw); [apply sret|apply sraise; reflexivity].
  - intro w. pose proof (os_item OS m k w) as HI. destruct (m_item R m k w) as [[v|e] w1]; [exact HI|].
    destruct (is_KeyError e) eqn:EC; [|exact HI]. pose proof CL as (_ & _ & _ & C4). eapply C4; [|exact HI|apply IH].
    apply KeyError_Exception. exact EC.
Qed.
Lemma chain_map_sat : forall ms kw, sat (chain_map R ms kw).
Proof.
  intros. apply sbind; [apply chain_keys_sat|]. intro. apply smap. intro. apply sbind; [apply chain_item_sat|]. intro. apply sret.
Qed.
Lemma sel_apply_sat : forall (s : sel obj) d, sat (lift (sel_apply s d)).
Proof. intros. apply sat_lift. intro. apply sel_apply_exception. Qed.

Lemma from_mapping_with_sat : forall s ms kw, sat (from_mapping_with R mk s ms kw).
Proof. intros. apply sbind; [apply chain_map_sat|]. intro. apply sbind; [apply sel_apply_sat|]. intro. apply HMK. Qed.
Lemma update_dict_sat : forall d ms kw, sat (update_dict R d ms kw).
Proof.
  intros d [|m [|m' r]] kw; cbn; [apply sret| |apply sraise; reflexivity].
  apply sbind; [apply (os_as_dict OS)|]. intro. apply sret.
Qed.
Lemma from_instance_with_sat : forall s v ms kw, sat (from_instance_with R mk c s v ms kw).
Proof.
  intros. unfold from_instance_with. apply sat_if; [apply sret|]. apply sbind; [apply to_dict_of_sat; exact FCc|]. intro.
  apply sbind; [apply update_dict_sat|]. intro. apply sbind; [apply sel_apply_sat|]. intro. apply HMK.
Qed.
Lemma from_json_with_sat : forall s v, sat (from_json_with R mk s v).
Proof.
  intros. apply sbind; [apply (os_loads OS)|]. intro.
  apply sbind; [apply sat_if; [apply (os_as_dict OS)|apply (os_unpack OS)]|]. intro. apply sbind; [apply sel_apply_sat|]. intro. apply HMK.
Qed.
Lemma run_parser_sat : forall p v, In p (c_parsers c) -> sat (run_parser R mk c p v).
Proof.
  intros [| | |p] v HI; cbn; [apply from_instance_with_sat|apply from_json_with_sat|apply from_mapping_with_sat|apply (cs_parser c CS); exact HI].
Qed.
Lemma attempt_sat : forall v ps, (forall p, In p ps -> In p (c_parsers c)) -> sat (attempt_parsers R mk c ps v).
Proof.
  intro v. induction ps as [|p r IH]; intro HP; [apply sret|]. intro w. cbn.
  pose proof (run_parser_sat p v (HP p (or_introl eq_refl)) w) as HR. specialize (IH (fun q HQ => HP q (or_intror HQ))).
  pose proof CL as (C1 & C2 & C3 & C4). destruct (run_parser R mk c p v w) as [[x|e] w1]; cbn [fst snd exc_of] in HR.
  - eapply C3; [exact HR|]. apply sbind; [apply IH|]. intro. apply sret.
  - destruct (is_Exception e) eqn:EX; [|exact HR]. eapply C4; [exact EX|exact HR|apply IH].
Qed.
Lemma parse_with_sat : forall v, sat (parse_with R mk c v).
Proof.
  intro v. apply sbind; [apply attempt_sat; auto|]. intros [|x [|y r]]; [apply sraise; reflexivity|apply sret|apply sraise; reflexivity].
Qed.
End Mk.

Lemma call_cls_sat : forall new pos kw, (forall p kw, sat (new p kw)) -> sat (call_cls R new c pos kw).
Proof.
  intros new pos kw HN. unfold call_cls. apply sat_if; [apply sraise; reflexivity|]. apply sbind.
  - destruct pos, (dget "arg" kw); try apply HN. apply sraise; reflexivity.
  - intro. apply sat_if; [apply sraise; reflexivity|apply sret].
Qed.

Section By.
Hypothesis BS : build_ok_sat c.

Lemma new_sat_by : forall n arg kw, sat (new R n c arg kw).
Proof.
  induction n as [|n IH]; intros arg kw; [apply sraise; reflexivity|]. cbn [new]. destruct arg as [a|]; [|apply BS].
  cbv zeta. apply sbind.
  - destruct kw as [|]; [|apply sret]. apply sat_if; [|apply sret].
    intro w. unfold catch_parse_failure.
    assert (HP : sat (parse_with R (call_cls R (new R n c) c None) c a)) by (apply parse_with_sat; intro d; apply call_cls_sat; exact IH).
    specialize (HP w). destruct (parse_with R (call_cls R (new R n c) c None) c a w) as [[x|e] w1]; [exact HP|].
    destruct (is_ParseFailure e) eqn:EP; [|exact HP]. cbn [fst snd exc_of] in HP.
    assert (EX := ParseFailure_Exception e EP).
    pose proof CL as (C1 & C2 & C3 & C4). eapply C4; [exact EX|exact HP|]. apply sat_if; [apply sret|apply sraise; exact EX].
  - intro p. apply sat_if; [apply sat_if; [apply sraise; reflexivity|apply sret]|].
    destruct (required_keys (c_fields c)) as [|k r]; [apply sraise; reflexivity|]. apply sat_if; [apply sraise; reflexivity|apply BS].
Qed.

Lemma construct_sat_by : forall n pos kw, sat (construct R n c pos kw).
Proof. intros. apply call_cls_sat. intros. apply new_sat_by. Qed.
Lemma from_mapping_sat_by : forall n s ms kw, sat (from_mapping R n c s ms kw).
Proof. intros. apply from_mapping_with_sat. intro. apply construct_sat_by. Qed.
Lemma from_instance_sat_by : forall n s v ms kw, sat (from_instance R n c s v ms kw).
Proof. intros. apply from_instance_with_sat. intro. apply construct_sat_by. Qed.
Lemma from_json_sat_by : forall n s v, sat (from_json R n c s v).
Proof. intros. apply from_json_with_sat. intro. apply construct_sat_by. Qed.
Lemma parse_sat_by : forall n v, sat (parse R n c v).
Proof. intros. apply parse_with_sat. intro. apply construct_sat_by. Qed.
Lemma from_pickled_sat_by : forall n v, sat (from_pickled R n c v).
Proof. intros. unfold from_pickled. apply sat_if; [apply sret|apply parse_sat_by]. Qed.

End By.

Hypothesis AS : alloc_sat.
Lemma new_sat : forall n arg kw, sat (new R n c arg kw).
Proof. apply new_sat_by. apply build_sat. exact AS. Qed.
Lemma construct_sat : forall n pos kw, sat (construct R n c pos kw).
Proof. apply construct_sat_by. apply build_sat. exact AS. Qed.
Lemma from_mapping_sat : forall n s ms kw, sat (from_mapping R n c s ms kw).
Proof. apply from_mapping_sat_by. apply build_sat. exact AS. Qed.
Lemma from_instance_sat : forall n s v ms kw, sat (from_instance R n c s v ms kw).
Proof. apply from_instance_sat_by. apply build_sat. exact AS. Qed.
Lemma from_json_sat : forall n s v, sat (from_json R n c s v).
Proof. apply from_json_sat_by. apply build_sat. exact AS. Qed.
Lemma parse_sat : forall n v, sat (parse R n c v).
Proof. apply parse_sat_by. apply build_sat. exact AS. Qed.
Lemma from_pickled_sat : forall n v, sat (from_pickled R n c v).
Proof. apply from_pickled_sat_by. apply build_sat. exact AS. Qed.

End Class.

Hypothesis CC : forall t c, ctx t = Some c -> class_sat c.

Section By.
Hypothesis BS : forall t c, ctx t = Some c -> build_ok_sat c.
Lemma copy_sat_by : forall n x, sat (copy R ctx n x).
Proof.
  intros. apply with_class_sat. intros t c E. apply sat_if; [apply sret|].
  apply from_instance_sat_by; [eapply CC|eapply FC|eapply BS]; exact E.
Qed.
Lemma deepcopy_sat_by : forall n x, sat (deepcopy R ctx n x).
Proof.
  intros. apply with_class_sat. intros t c E. apply sbind; [apply to_dict_sat|]. intro. apply sbind; [apply (os_deep OS)|]. intro.
  apply construct_sat_by; [eapply CC|eapply FC|eapply BS]; exact E.
Qed.

End By.

Hypothesis AS : alloc_sat.
Lemma copy_sat : forall n x, sat (copy R ctx n x).
Proof. apply copy_sat_by. intros t c E. apply build_sat; [eapply CC; exact E|exact AS]. Qed.
Lemma deepcopy_sat : forall n x, sat (deepcopy R ctx n x).
Proof. apply deepcopy_sat_by. intros t c E. apply build_sat; [eapply CC; exact E|exact AS]. Qed.

End Inv.
