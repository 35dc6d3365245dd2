(** Inherit_main.v -- proofs of the properties stated in Props_Inherit.v: subclasses without fields of their own, or with optional ones (records/record.py:77-158, 168-252) *)

From Verif Require Import Base Py Select Filler Spec_Filler Classes Spec_Classes Runtime Record Spec_Record Spec_Inherit Demo DemoRt DemoCls.
From Verif Require Filler_proofs Record_proofs Dict_proofs Classes_proofs Classes_main From_main.
Open Scope string_scope.
Open Scope list_scope.

Import Filler_proofs Record_proofs Dict_proofs Classes_proofs.
Section Inherit.
Context {obj ty W : Type} (R : Rt obj ty W).
Notation P := (rt_py R).
Notation cls := (@cls obj ty W).
Notation base := (@base obj ty W).

Lemma own_hints_nil : forall inherited, @own_hints obj ty W [] inherited = [].
Proof. intros l. unfold own_hints. cbn. rewrite app_nil_r. induction (firsts l); [reflexivity|assumption]. Qed.

Lemma only_base_fields : forall (c : cls) bases, only_base c bases -> flat_map base_fields bases = c_fields c.
Proof.
  intros c bases (n & m & ->). rewrite flat_map_app. cbn.
  assert (E : forall n, flat_map (@base_fields obj ty W) (repeat BOther n) = []) by (induction n0; [reflexivity|assumption]). rewrite !E, app_nil_r. reflexivity.
Qed.

Lemma bind_others : forall (p : Py obj ty W) t s (fs : dict (@field obj ty W)), (forall k f, In (k, f) fs -> f_owner f <> t) -> bind_fields p t s fs = Ok fs.
Proof.
  intros p t s fs. induction fs as [|[k f] r IH]; intros H; [reflexivity|]. cbn. destruct (ty_eqP p (f_owner f) t) as [E|_]; [destruct (H k f (or_introl eq_refl) E)|].
  cbn. rewrite IH; [reflexivity|]. intros k' f' HI. apply (H k' f'). right. exact HI.
Qed.

Lemma bodyless_fields : forall p (c c' : cls), bodyless p c c' -> c_fields c' = c_fields c.
Proof.
  intros p c c' (t & fr & ord & un & s & inh & st & bases & parsers & post & HB & HO & H). unfold make_class in H. cbn [d_anns d_inherited_anns d_bases d_prebind d_ty d_style d_unary d_frozen d_ordered d_parsers d_post_new] in H. rewrite own_hints_nil in H. cbn [own_fields obind] in H.
  oinv H. rewrite (only_base_fields _ _ HB) in Ha. apply inherit_fields_ok in Ha. destruct Ha as (E & _). cbn in E. subst a. rewrite app_nil_r in H.
  destruct (c_fields c) as [|q r] eqn:EC; [discriminate|]. cbn [apply_prebind obind] in H. rewrite (bind_others p t s (q :: r) HO) in H. cbn in H. injection H as <-. reflexivity.
Qed.

Lemma same_kwargs : forall c c' : cls, c_fields c' = c_fields c -> forall p kw w, fill_kwargs R c' p kw w = fill_kwargs R c p kw w.
Proof.
  intros c c' H p. induction kw as [|[k a] r IH]; intros w; [reflexivity|]. cbn. rewrite H. destruct (dget k (c_fields c)) as [f|]; [|reflexivity].
  destruct (call P (f_filler f) a w) as [[y|e] w1]; [|reflexivity]. unfold bind. rewrite IH. reflexivity.
Qed.
Lemma same_defaults : forall c c' : cls, c_fields c' = c_fields c -> forall ks w, fill_defaults c' ks w = fill_defaults c ks w.
Proof.
  intros c c' H. induction ks as [|k r IH]; intros w; [reflexivity|]. cbn. rewrite H. unfold bind. match goal with |- (let (_, _) := ?m in _) = _ => destruct m as [[v|e] w1] end; [|reflexivity].
  rewrite IH. reflexivity.
Qed.

Lemma no_post_finish : forall c : cls, no_post_new R c -> forall vs w,
  finish R c (none R) vs w = (Ok (ref R (c_ty c) (List.length (heap R w))), set_heap R (heap R w ++ [Inst (c_ty c) vs (if c_frozen c then SNone else SUnset)]) w).
Proof.
  intros c H vs w. rewrite finish_none. unfold post_new_result, bind. rewrite H, truth_none. reflexivity.
Qed.

Lemma same_build : forall c c' : cls, c_fields c' = c_fields c -> no_post_new R c -> no_post_new R c' -> forall kw w,
  ends_alike R c c' (build R c (none R) kw w) (build R c' (none R) kw w).
Proof.
  intros c c' H HP HP' kw w. unfold build. rewrite H. destruct (negb (forallb _ (keys kw))); [left; do 2 eexists; split; reflexivity|]. unfold bind. rewrite (same_kwargs c c' H).
  destruct (fill_kwargs R c (none R) kw w) as [[[vs|]|e] w1] eqn:EF; [| |left; do 2 eexists; split; reflexivity].
  - destruct (negb (forallb _ _)); [left; do 2 eexists; split; reflexivity|]. rewrite (same_defaults c c' H).
    destruct (fill_defaults c _ w1) as [[ds|e] w2]; [|left; do 2 eexists; split; reflexivity]. rewrite (no_post_finish c HP), (no_post_finish c' HP').
    right. do 6 eexists. split; [reflexivity|]. split; [reflexivity|]. split; apply lookup_alloc.
  - exfalso. clear HP HP'. revert w w1 EF. induction kw as [|[k a] r IH]; intros w w1 EF; [discriminate|]. cbn in EF. destruct (dget k (c_fields c)) as [f|]; [|discriminate].
    destruct (call P (f_filler f) a w) as [[y|e] w2].
    + unfold bind in EF. destruct (fill_kwargs R c (none R) r w2) as [[[ys|]|e] w3] eqn:E2; try discriminate. exact (IH _ _ E2).
    + destruct (negb (is_Exception e)); [discriminate|]. rewrite is_none_none in EF. discriminate.
Qed.

(** ** Subclasses with further fields *)
Definition extends_class (c c' : cls) : Prop :=
  dict_ok (c_fields c) /\ dict_ok (c_fields c') /\ (forall k f, dget k (c_fields c) = Some f -> dget k (c_fields c') = Some f) /\
  (forall k f, dget k (c_fields c') = Some f -> ~ In k (keys (c_fields c)) -> has_default f = true) /\ plain_defaults c'.

Lemma further_kwargs : forall c c', extends_class c c' -> forall kw, known c kw -> forall w, fill_kwargs R c' (none R) kw w = fill_kwargs R c (none R) kw w.
Proof.
  intros c c' (_ & _ & HS & _) kw. induction kw as [|[k a] r IH]; intros HK w; [reflexivity|]. cbn. destruct (dget k (c_fields c)) as [f|] eqn:E.
  - rewrite (HS _ _ E). destruct (call P (f_filler f) a w) as [[y|e] w1]; [|reflexivity]. unfold bind. rewrite IH; [reflexivity|]. intros k' HI. apply HK. right. exact HI.
  - apply dget_None in E. destruct (E (HK k (or_introl eq_refl))).
Qed.

Lemma required_iff : forall (c : cls) k, dict_ok (c_fields c) -> In k (required_keys (c_fields c)) <-> exists f, dget k (c_fields c) = Some f /\ has_default f = false.
Proof.
  intros c k HD. unfold required_keys, keys. rewrite in_map_iff. split.
  - intros ([k' f] & <- & HI). apply filter_In in HI. destruct HI as [HI HN]. cbn in *. exists f. split; [apply dget_In; assumption|]. destruct (has_default f); [discriminate|reflexivity].
  - intros (f & E & HN). exists (k, f). split; [reflexivity|]. apply filter_In. split; [|cbn; rewrite HN; reflexivity]. apply dget_Some_In. exact E.
Qed.

Lemma further_required : forall c c', extends_class c c' -> forall k, In k (required_keys (c_fields c')) <-> In k (required_keys (c_fields c)).
Proof.
  intros c c' (D & D' & HS & HN & _) k. rewrite !required_iff by assumption. split; intros (f & E & F).
  - destruct (dget k (c_fields c)) as [f0|] eqn:E0; [rewrite (HS _ _ E0) in E; injection E as <-; eauto|]. apply dget_None in E0. rewrite (HN _ _ E E0) in F. discriminate.
  - eauto.
Qed.

Lemma plain_fill : forall c : cls, plain_defaults c -> forall ks w, (forall k, In k ks -> exists f, dget k (c_fields c) = Some f /\ has_default f = true) ->
  exists vs, fill_defaults c ks w = (Ok vs, w) /\ forall k, dget k vs = (if smem k ks then match dget k (c_fields c) with Some f => match f_default f with DefVal v => Some v | _ => None end | None => None end else None).
Proof.
  intros c HP. induction ks as [|k r IH]; intros w HK.
  - exists []. split; reflexivity.
  - destruct (HK k (or_introl eq_refl)) as (f & E & HD). destruct (IH w) as (vs & EV & HV); [intros k' HI; apply HK; right; exact HI|].
    assert (V : exists v, f_default f = DefVal v) by (unfold has_default in HD; destruct (f_default f) eqn:EF; [discriminate|eauto|destruct (HP _ _ _ E EF)]). destruct V as (v & V).
    exists ((k, v) :: vs). split.
    + cbn. rewrite E. unfold bind, make_default. rewrite V. cbn. rewrite EV. reflexivity.
    + intros j. cbn. destruct (String.eqb_spec j k) as [->|N]; [|apply HV]. rewrite E, V. reflexivity.
Qed.

Lemma optional_has : forall (c : cls) (kw : dict obj) k, dict_ok (c_fields c) -> In k (filter (fun k => negb (dmem k kw)) (optional_keys (c_fields c))) ->
  exists f, dget k (c_fields c) = Some f /\ has_default f = true.
Proof.
  intros c kw k HD HI. apply filter_In in HI. destruct HI as [HI _]. unfold optional_keys in HI. apply filter_In in HI. destruct HI as [HI HN].
  destruct (dget k (c_fields c)) as [f|] eqn:E; [|apply dget_None in E; contradiction]. exists f. split; [reflexivity|]. destruct (has_default f) eqn:EH; [reflexivity|].
  assert (HR : In k (required_keys (c_fields c))) by (apply required_iff; eauto). apply smem_In in HR. rewrite HR in HN. discriminate.
Qed.

Lemma forallb_same : forall (kw : dict obj) l l', (forall k, In k l <-> In k l') -> forallb (fun k => dmem k kw) l = forallb (fun k => dmem k kw) l'.
Proof.
  intros kw l l' H. destruct (forallb (fun k => dmem k kw) l) eqn:E, (forallb (fun k => dmem k kw) l') eqn:E'; try reflexivity.
  - rewrite forallb_forall in E. assert (C : forallb (fun k => dmem k kw) l' = true) by (apply forallb_forall; intros k HI; apply E, H, HI). congruence.
  - rewrite forallb_forall in E'. assert (C : forallb (fun k => dmem k kw) l = true) by (apply forallb_forall; intros k HI; apply E', H, HI). congruence.
Qed.

(** what building with plain defaults comes to *)
Lemma plain_build : forall c : cls, dict_ok (c_fields c) -> plain_defaults c -> no_post_new R c -> forall kw w, known c kw ->
  (exists e w1, fill_kwargs R c (none R) kw w = (Raise e, w1) /\ build R c (none R) kw w = (Raise e, w1)) \/
  (exists vs w1, fill_kwargs R c (none R) kw w = (Ok (Some vs), w1) /\
    if forallb (fun k => dmem k kw) (required_keys (c_fields c)) then
      exists ds, (forall k, dget k ds = if dmem k kw then None else match dget k (c_fields c) with Some f => match f_default f with DefVal v => Some v | _ => None end | None => None end) /\
      build R c (none R) kw w = (Ok (ref R (c_ty c) (List.length (heap R w1))), set_heap R (heap R w1 ++ [Inst (c_ty c) (vs ++ ds) (if c_frozen c then SNone else SUnset)]) w1)
    else build R c (none R) kw w = (Raise (mkexc TypeError "missing required arguments"), w1)).
Proof.
  intros c HD HPL HP kw w HK. unfold build. assert (EK : forallb (fun k => dmem k (c_fields c)) (keys kw) = true) by (apply forallb_forall; intros k HI; apply dmem_In, HK, HI).
  rewrite EK. cbn [negb]. unfold bind. destruct (fill_kwargs R c (none R) kw w) as [[[vs|]|e] w1] eqn:EF.
  - right. exists vs, w1. split; [reflexivity|]. destruct (forallb (fun k => dmem k kw) (required_keys (c_fields c))) eqn:ER; [|reflexivity]. cbn [negb].
    set (ks := filter (fun k => negb (dmem k kw)) (optional_keys (c_fields c))). pose proof (set_order_perm R w1 ks) as HPM.
    destruct (plain_fill c HPL (set_order R w1 ks) w1) as (ds & EV & HV).
    { intros k HI. apply (optional_has c kw k HD). apply (Permutation_in _ (Permutation_sym HPM)). exact HI. }
    exists ds. rewrite EV, (no_post_finish c HP). split; [|reflexivity]. intros k. rewrite HV. destruct (dget k (c_fields c)) as [f|] eqn:E; [|destruct (smem k _), (dmem k kw); reflexivity].
    destruct (smem k (set_order R w1 ks)) eqn:ES.
    + apply smem_In in ES. apply (Permutation_in _ (Permutation_sym HPM)) in ES. apply filter_In in ES. destruct ES as [_ ES]. destruct (dmem k kw); [discriminate|reflexivity].
    + destruct (dmem k kw) eqn:EM; [reflexivity|]. destruct (f_default f) eqn:EFD; try reflexivity. apply smem_false in ES. exfalso. apply ES. apply (Permutation_in _ HPM). apply filter_In. rewrite EM. split; [|reflexivity].
      unfold optional_keys. apply filter_In. split; [apply dget_Some_In in E; apply (in_map fst) in E; exact E|]. destruct (smem k (required_keys (c_fields c))) eqn:ER2; [|reflexivity].
      apply smem_In in ER2. apply (required_iff c k HD) in ER2. destruct ER2 as (f' & E' & HN). rewrite E in E'. injection E' as <-. unfold has_default in HN. rewrite EFD in HN. discriminate.
  - exfalso. clear -EF. revert w w1 EF. induction kw as [|[k a] r IH]; intros w w1 EF; [discriminate|]. cbn in EF. destruct (dget k (c_fields c)) as [f|]; [|discriminate].
    destruct (call P (f_filler f) a w) as [[y|e] w2].
    + unfold bind in EF. destruct (fill_kwargs R c (none R) r w2) as [[[ys|]|e] w3] eqn:E2; try discriminate. exact (IH _ _ E2).
    + destruct (negb (is_Exception e)); [discriminate|]. rewrite is_none_none in EF. discriminate.
  - left. eauto.
Qed.
End Inherit.

Lemma c172_fields_proof : forall {obj ty W} (P : Py obj ty W) c c', bodyless P c c' -> c_fields c' = c_fields c.
Proof.
 intros obj ty W P c c' H. exact (bodyless_fields P c c' H). Qed.

Lemma c172_keywords_partial_proof : forall {obj ty W} (R : Rt obj ty W) c c' n kw w, bodyless (rt_py R) c c' -> no_post_new R c -> no_post_new R c' -> no_reserved kw ->
  ends_alike R c c' (construct R (S n) c None kw w) (construct R (S n) c' None kw w).
Proof.
  intros obj ty W R c c' n kw w H HP HP' HR. rewrite !construct_plain by assumption. apply same_build; [apply (bodyless_fields (rt_py R)); exact H|exact HP|exact HP'].
Qed.

Lemma c172_further_partial_proof : forall {obj ty W} (R : Rt obj ty W) d c c' n kw w, made (rt_py R) c -> make_class (rt_py R) d = Ok c' -> d_bases d = [BRecord c] -> dict_ok (d_anns d) ->
  (forall k f, dget k (c_fields c') = Some f -> ~ In k (keys (c_fields c)) -> has_default f = true) -> plain_defaults c' ->
  no_post_new R c -> no_post_new R c' -> no_reserved kw ->
  (forall x w1, construct R (S n) c None kw w = (Ok x, w1) -> exists y w2 i j, construct R (S n) c' None kw w = (Ok y, w2) /\
     lookup R w1 x = Some i /\ lookup R w2 y = Some j /\
     (forall k, In k (keys (c_fields c)) -> dget k (i_dict j) = dget k (i_dict i)) /\
     (forall k f v, dget k (c_fields c') = Some f -> ~ In k (keys (c_fields c)) -> f_default f = DefVal v -> dget k (i_dict j) = Some v)) /\
  (forall e w1, known c kw -> construct R (S n) c None kw w = (Raise e, w1) -> construct R (S n) c' None kw w = (Raise e, w1)).
Proof.
  intros obj ty W R d c c' n kw w HM HC HB HA HN HPL HP HP' HR. rewrite !construct_plain by assumption.
  destruct (Classes_main.c59_fields_proof (rt_py R) d c' HC HA) as [HF _]; [intros b HI; rewrite HB in HI; destruct HI as [E|[]]; injection E as <-; exact HM|].
  assert (HS : forall k f, dget k (c_fields c) = Some f -> dget k (c_fields c') = Some f) by (intros k f; apply HF; rewrite HB; left; reflexivity).
  destruct (Classes_main.made_inv (rt_py R) c HM) as [OK _].
  assert (HM' : made (rt_py R) c') by (econstructor; [exact HC|exact HA|intros b HI; rewrite HB in HI; destruct HI as [E|[]]; injection E as <-; exact HM]).
  destruct (Classes_main.made_inv (rt_py R) c' HM') as [OK' _].
  assert (HX : extends_class c c') by (repeat split; assumption).
  assert (HPL0 : plain_defaults c) by (intros k f g E; exact (HPL k f g (HS _ _ E))).
  assert (K : known c kw -> known c' kw).
  { intros HK k HI. apply HK in HI. destruct (dget k (c_fields c)) as [f|] eqn:E; [apply HS in E; apply dget_Some_In in E; apply (in_map fst) in E; exact E|apply dget_None in E; contradiction]. }
  assert (MAIN : known c kw -> 
    (exists e w1, build R c (none R) kw w = (Raise e, w1) /\ build R c' (none R) kw w = (Raise e, w1)) \/
    exists vs ds ds' w1, keys vs = keys kw /\
      build R c (none R) kw w = (Ok (ref R (c_ty c) (List.length (heap R w1))), set_heap R (heap R w1 ++ [Inst (c_ty c) (vs ++ ds) (if c_frozen c then SNone else SUnset)]) w1) /\
      build R c' (none R) kw w = (Ok (ref R (c_ty c') (List.length (heap R w1))), set_heap R (heap R w1 ++ [Inst (c_ty c') (vs ++ ds') (if c_frozen c' then SNone else SUnset)]) w1) /\
      (forall k, dget k ds = if dmem k kw then None else match dget k (c_fields c) with Some f => match f_default f with DefVal v => Some v | _ => None end | None => None end) /\
      (forall k, dget k ds' = if dmem k kw then None else match dget k (c_fields c') with Some f => match f_default f with DefVal v => Some v | _ => None end | None => None end)).
  { intros HK. pose proof (plain_build R c OK HPL0 HP kw w HK) as A. pose proof (plain_build R c' OK' HPL HP' kw w (K HK)) as B. rewrite (further_kwargs R c c' HX kw HK w) in B.
    rewrite (forallb_same kw _ _ (further_required c c' HX)) in B.
    destruct A as [(e & w1 & A1 & A2)|(vs & w1 & A1 & A2)]; destruct B as [(e' & w1' & B1 & B2)|(vs' & w1' & B1 & B2)]; rewrite A1 in B1; try discriminate.
    - injection B1 as <- <-. left. eauto.
    - injection B1 as <- <-. apply fill_kwargs_filled in A1. apply filled_keys in A1. destruct (forallb _ _).
      + destruct A2 as (ds & D1 & A2). destruct B2 as (ds' & D2 & B2). right. exists vs, ds, ds', w1. auto.
      + left. eauto. }
  split.
  - intros x w1 E. assert (HK : known c kw).
    { intros k HI. unfold build in E. destruct (forallb (fun k => dmem k (c_fields c)) (keys kw)) eqn:EK; [|discriminate]. rewrite forallb_forall in EK. apply dmem_In. apply EK. exact HI. }
    destruct (MAIN HK) as [(e & w2 & A & _)|(vs & ds & ds' & w2 & KV & A & B & D1 & D2)]; [congruence|]. rewrite A in E. injection E as <- <-. do 4 eexists. split; [exact B|].
    split; [apply (lookup_alloc R c)|]. split; [apply (lookup_alloc R c')|]. cbn [i_dict]. split.
    + intros k HI. rewrite !dget_app. destruct (dget k vs); [reflexivity|]. rewrite D1, D2. destruct (dget k (c_fields c)) as [f|] eqn:EF; [rewrite (HS _ _ EF); reflexivity|apply dget_None in EF; contradiction].
    + intros k f v EF HI EV. rewrite dget_app. assert (NK : ~ In k (keys kw)) by (intros HH; apply HK in HH; contradiction).
      replace (dget k vs) with (@None obj) by (symmetry; apply dget_None; rewrite KV; exact NK). rewrite D2. apply dmem_false in NK. rewrite NK, EF, EV. reflexivity.
  - intros e w1 HK E. destruct (MAIN HK) as [(e' & w2 & A & B)|(vs & ds & ds' & w2 & KV & A & _)]; [|congruence]. rewrite A in E. injection E as <- <-. exact B.
Qed.

(** class A(RecordBase, unary_parse=True): x: int; a parser `of`   and   class B(A): pass *)
Definition pa : @cls dobj dty rstate := made_of (rdecl 0 false false (Some true) SCheck [("x", (AHint (HTy TInt) [], NoDefault))]
  [("of", fun _ => ret (DStr "parsed"))] no_post).
Definition pb : @cls dobj dty rstate := made_of (Decl (TRec 1) false false None SHollow [] [] (fun _ => NoDefault) [BOther; BRecord pa] []
  [("of", fun _ => ret (DStr "parsed"))] no_post).
(** class D(A): z: int = 3 *)
Definition pd : @decl dobj dty rstate := Decl (TRec 2) false false None SCheck [("z", AHint (HTy TInt) [])] []
  (fun k => if String.eqb k "z" then DefVal (DInt 3) else NoDefault) [BRecord pa] [] [] no_post.

Lemma c172_positional_refuted_proof : exists c c' a w x w1 e w2, bodyless (rt_py (demo_rt 0)) c c' /\ c_parsers c' = c_parsers c /\
  construct (demo_rt 0) 2 c (Some a) [] w = (Ok x, w1) /\ construct (demo_rt 0) 2 c' (Some a) [] w = (Raise e, w2) /\ exc_cls e = TypeError.
Proof.
  exists pa, pb, (DStr "5"), w0. do 4 eexists. split; [|split; [reflexivity|split; [reflexivity|split; reflexivity]]].
  unfold bodyless. exists (TRec 1), false, false, None, SHollow, [], (fun _ => NoDefault), [BOther; BRecord pa], [("of", fun _ => ret (DStr "parsed"))], no_post. split; [exists 1, 0; reflexivity|]. split; [|reflexivity].
  intros k f [E|[]]. injection E as <- <-. discriminate.
Qed.
