(** Bodies_main.v -- proofs of the properties stated in Props_Bodies.v: class statements: Final, defaults, parsers and default_type_check (RecordBase.__init_subclass__) *)

From Verif Require Import Base Py Filler Spec_Filler Spec_State Spec_Typing Classes Spec_Classes Bodies Spec_Bodies Demo.
From Coq Require Import Sorted.
From Verif Require Dict_proofs Filler_proofs Classes_proofs Classes_main Typing_main Bodies_proofs.
Open Scope string_scope.
Open Scope list_scope.

Import Dict_proofs Filler_proofs Classes_proofs Classes_main Typing_main Bodies_proofs.

Lemma c104_final_partial_proof : forall {obj ty W} (P : Py obj ty W) d s,
  d_frozen d = true -> make_class P (finally s d) = make_class P d.
Proof.
  intros obj ty W P d s HF. unfold make_class. pose proof (own_fields_finally P d s HF) as E.
  change (d_inherited_anns (finally s d)) with (d_inherited_anns d). rewrite E. reflexivity.
Qed.

Lemma c104_not_frozen_proof : forall {obj ty W} (P : Py obj ty W) d k a,
  d_frozen d = false -> dict_ok (d_anns d) -> dget k (d_anns d) = Some a -> is_final a = true ->
  (forall c, make_class P d <> Ok c) /\
  ((forall k' a', dget k' (d_anns d) = Some a' -> is_final a' = false ->
      exists r, from_type_hint P false (d_ty d) k' (d_static d k') a' = Ok r) ->
   exists m, make_class P d = Raise (mkexc TypeError m)).
Proof.
  intros obj ty W P d k a HF HO E HA.
  assert (IN : In (k, a) (own_hints (d_anns d) (d_inherited_anns d))) by (apply in_own_hints; assumption).
  assert (G : forall l, In (k, a) l -> (forall k' a', In (k', a') l -> In (k', a') (own_hints (d_anns d) (d_inherited_anns d))) ->
     (forall fs, own_fields P d l <> Ok fs) /\
     ((forall k' a', dget k' (d_anns d) = Some a' -> is_final a' = false ->
        exists r, from_type_hint P false (d_ty d) k' (d_static d k') a' = Ok r) ->
      exists m, own_fields P d l = Raise (mkexc TypeError m))).
  { induction l as [|[k1 a1] r IH]; intros HI HS; [destruct HI|].
    cbn [own_fields]. rewrite HF. destruct (is_final a1) eqn:F1.
    - destruct a1; try discriminate. cbn. split; [discriminate|eauto].
    - destruct HI as [HI|HI]; [injection HI as -> ->; congruence|].
      destruct (IH HI (fun k' a' H => HS k' a' (or_intror H))) as [IH1 IH2]. split.
      + intros fs X. oinv X. oinv X. eapply IH1; eassumption.
      + intro HK. destruct (HK k1 a1) as [x Ex]; [eapply own_hints_In; [assumption|apply HS; left; reflexivity]|assumption|].
        rewrite Ex. cbn. destruct (IH2 HK) as [m ->]. cbn. eauto. }
  destruct (G _ IN (fun k' a' H => H)) as [G1 G2]. split.
  - intros c X. unfold make_class in X. oinv X. eapply G1; eassumption.
  - intro HK. unfold make_class. destruct (G2 HK) as [m ->]. cbn. eauto.
Qed.

Lemma c104_annotated_refuted_proof :
  exists obj ty W (P : Py obj ty W) d h tok c c' f f' x w,
    d_frozen d = true /\ d_anns d = [("x", AHint h [ATok tok])] /\
    make_class P d = Ok c /\ dget "x" (c_fields c) = Some f /\
    make_class P (Decl (d_ty d) (d_frozen d) (d_ordered d) (d_unary d) (d_style d) [("x", AFinal (AHint h []) [ATok tok])]
                       (d_inherited_anns d) (d_static d) (d_bases d) (d_prebind d) (d_parsers d) (d_post_new d)) = Ok c' /\
    dget "x" (c_fields c') = Some f' /\
    is_ok (fst (call P (f_filler f) x w)) = false /\ call P (f_filler f') x w = (Ok x, w).
Proof.
  exists dobj, dty, demo_state, demo0,
    (Decl (TRec 0) true false None SCheck [("x", AHint (HTy TInt) [ATok (TValid (VGlobal (fun _ => Ok (fun _ => raise (mkexc ValueError "")))))])] []
       (fun _ => NoDefault) [BOther] [] [] (fun _ => ret DNone)), (HTy TInt), (TValid (VGlobal (fun _ => Ok (fun _ => raise (mkexc ValueError ""))))).
  do 4 eexists. exists (DInt 3), st0. repeat (split; [reflexivity|]). reflexivity.
Qed.

Lemma c104_dropped_proof : forall {obj ty W} (P : Py obj ty W) frozen owner k dflt h inner args f,
  from_type_hint P frozen owner k dflt (AFinal (AHint h inner) args) = Ok (Some f) ->
  get_filler P (full_hint h inner) = Ok (f_filler f) /\
  (forall n, In n (f_tags f) <-> In n (arg_tags inner ++ arg_tags args)).
Proof.
  intros obj ty W P frozen owner k dflt h inner args f H. apply from_type_hint_some in H.
  destruct H as (_ & _ & _ & _ & H1 & H2). split; [exact H1|exact H2].
Qed.

Lemma c105_default_proof : forall {obj ty W} (P : Py obj ty W) b c k,
  create P b = Ok c -> dict_ok (b_anns b) -> good_bases P b -> declares b k ->
  exists f, dget k (c_fields c) = Some f /\
    (forall e, nearest k e (b_body b :: b_mro b ++ b_meta b) -> f_default f = as_default e) /\
    ((forall n, In n (b_body b :: b_mro b ++ b_meta b) -> dget k n = None) -> f_default f = NoDefault).
Proof.
  intros obj ty W P b c k H HO HB (a & E & HF). destruct (create_inv P b c H) as (c0 & H0 & -> & _).
  destruct (c59_fields_proof P _ _ H0 HO HB) as [_ FD]. destruct (FD k a E HF) as (f & Ef & _ & _ & DF & _).
  exists f. split; [exact Ef|]. rewrite DF. cbn [d_static decl_of]. unfold getattr_static. split.
  - intros e HN. apply find_in_nearest in HN. rewrite HN. reflexivity.
  - intro HN. rewrite find_in_none by assumption. reflexivity.
Qed.

Lemma c105_required_partial_proof : forall {obj ty W} (P : Py obj ty W) b c k,
  create P b = Ok c -> dict_ok (b_anns b) -> good_bases P b -> declares b k ->
  (forall n, In n (b_mro b ++ b_meta b) -> dget k n = None) ->
  (In k (required_keys (c_fields c)) <-> ~ In k (keys (b_body b))) /\
  (forall e, dget k (b_body b) = Some e -> exists f, dget k (c_fields c) = Some f /\ f_default f = as_default e).
Proof.
  intros obj ty W P b c k H HO HB HD HN. destruct (c105_default_proof P b c k H HO HB HD) as (f & Ef & D1 & D2).
  assert (REQ : In k (required_keys (c_fields c)) <-> f_default f = NoDefault).
  { destruct (create_inv P b c H) as (c0 & H0 & EF & _). rewrite EF in *.
    apply (c59_partition_proof P c0); [|exact Ef]. econstructor; [exact H0|exact HO|exact HB]. }
  split.
  - rewrite REQ. split.
    + intros EN HI. destruct (in_keys_get _ _ HI) as [e Ee]. rewrite (D1 e) in EN by (constructor; assumption).
      unfold as_default in EN. destruct (n_factory e); discriminate.
    + intro NI. apply D2. intros n [<-|HI]; [apply dget_None; assumption|apply HN; assumption].
  - intros e Ee. exists f. split; [exact Ef|]. apply D1. constructor. assumption.
Qed.

Lemma c105_names_refuted_proof : forall {obj ty W} (P : Py obj ty W) b c k e,
  create P b = Ok c -> dict_ok (b_anns b) -> good_bases P b -> declares b k ->
  dget k (b_body b) = None -> nearest k e (b_mro b ++ b_meta b) ->
  ~ In k (required_keys (c_fields c)) /\ exists f, dget k (c_fields c) = Some f /\ f_default f = as_default e.
Proof.
  intros obj ty W P b c k e H HO HB HD HN HE. destruct (c105_default_proof P b c k H HO HB HD) as (f & Ef & D1 & D2).
  assert (DF : f_default f = as_default e) by (apply D1; apply nearest_later; assumption).
  split; [|eauto]. destruct (create_inv P b c H) as (c0 & H0 & EF & _). rewrite EF in *.
  assert (M : made P c0) by (econstructor; [exact H0|exact HO|exact HB]).
  destruct (c59_partition_proof P c0 M) as (_ & RQ & _). rewrite (RQ k f Ef), DF.
  unfold as_default. destruct (n_factory e); discriminate.
Qed.

Lemma c106_parsers_proof : forall {obj ty W} (P : Py obj ty W) b c,
  create P b = Ok c -> dict_ok (b_anns b) ->
  exists names, NoDup names /\ StronglySorted (fun k k' => String.leb k k' = true) names /\
    Forall2 (parser_at b) names (c_parsers c) /\
    forall k p, parser_at b k p -> In k names.
Proof.
  intros obj ty W P b c H HO. destruct (create_inv P b c H) as (c0 & H0 & _ & ->).
  assert (OWN : forall k, In k (own_names P b) <-> declares b k) by (apply own_names_declares with (c := c0); assumption).
  unfold find_parsers. set (own := with_fields b (own_names P b)).
  set (sel := fun k => match getattr_static own b k with Some e => match n_parser e with Some p => Some p | None => None end | None => None end).
  assert (SEL : forall k, In k (dir (own :: b_mro b)) -> forall p, sel k = Some p <-> parser_at b k p).
  { intros k HK p. apply (sel_parser P b k p HK OWN). }
  exists (filter (fun k => match sel k with Some _ => true | None => false end) (dir (own :: b_mro b))).
  split; [apply NoDup_filter; apply dir_NoDup|]. split; [apply filter_sorted; apply dir_sorted|]. split.
  - assert (G : forall l, (forall k, In k l -> In k (dir (own :: b_mro b))) ->
      Forall2 (parser_at b) (filter (fun k => match sel k with Some _ => true | None => false end) l)
        (flat_map (fun k => match getattr_static own b k with Some e => match n_parser e with Some p => [p] | None => [] end | None => [] end) l)).
    { induction l as [|k r IH]; intro HL; cbn [filter flat_map]; [constructor|]. specialize (IH (fun k H => HL k (or_intror H))).
      pose proof (SEL k (HL k (or_introl eq_refl))) as S. destruct (sel k) as [p|] eqn:ES; unfold sel in ES;
      (destruct (getattr_static own b k) as [e|]; [destruct (n_parser e) as [p'|]|]); try discriminate; try exact IH.
      injection ES as ->. cbn [app]. constructor; [apply S; reflexivity|exact IH]. }
    apply G. auto.
  - intros k p HP. assert (HK : In k (dir (own :: b_mro b))) by (eapply parser_in_dir; eassumption).
    apply filter_In. split; [assumption|]. apply SEL in HP; [|assumption]. rewrite HP. reflexivity.
Qed.

Lemma c106_inherited_proof : forall {obj ty W} (P : Py obj ty W) b0 c0 b c k p,
  create P b0 = Ok c0 -> dict_ok (b_anns b0) -> create P b = Ok c -> dict_ok (b_anns b) ->
  b_mro b = namespace_of P b0 :: b_mro b0 ->
  ~ In k (keys (b_body b)) -> ~ declares b k ->
  (parser_at b k p <-> parser_at b0 k p).
Proof.
  intros obj ty W P b0 c0 b c k p H0 HO0 H HO HM HB HD. destruct (create_inv P b0 c0 H0) as (c1 & H1 & _ & _).
  assert (OWN : forall k, In k (own_names P b0) <-> declares b0 k) by (apply own_names_declares with (c := c1); assumption).
  unfold parser_at. rewrite HM. assert (EN : dget k (b_body b) = None) by (apply dget_None; assumption).
  assert (G : forall e, n_parser e = Some p -> (nearest k e (b_body b :: namespace_of P b0 :: b_mro b0) <-> ~ declares b0 k /\ nearest k e (b_body b0 :: b_mro b0))).
  { intros e Ep. rewrite <- (find_in_nearest k e (b_body b :: _)). cbn [find_in]. rewrite EN.
    unfold namespace_of. rewrite with_fields_get. destruct (smem k (own_names P b0)) eqn:ES.
    - apply smem_In in ES. apply OWN in ES. split; [|tauto]. intro X. injection X as <-. discriminate.
    - apply smem_false in ES. rewrite OWN in ES. rewrite <- find_in_nearest. cbn [find_in]. tauto. }
  split.
  - intros (_ & e & HN & Ep). apply G in HN; [|assumption]. destruct HN as [H2 HN]. split; [assumption|]. eauto.
  - intros (H2 & e & HN & Ep). split; [assumption|]. exists e. split; [|assumption]. apply G; auto.
Qed.

Lemma c106_as_assumed_proof : forall {obj ty W} (P : Py obj ty W) b c,
  create P b = Ok c -> dict_ok (b_anns b) -> builtins_stand b ->
  exists user, dict_ok user /\
    (forall k f, In (k, f) user <-> parser_at b k (PUser f)) /\
    make_class P (with_user_parsers (decl_of b) user) = Ok c.
Proof.
  intros obj ty W P b c H HO HS. destruct (c106_parsers_proof P b c H HO) as (names & ND & SO & F2 & AL).
  exact (as_assumed P b c names H HO HS ND SO F2 AL).
Qed.

Lemma c107_declaring_class_partial_proof : forall {obj ty W} (P : Py obj ty W) d c k a,
  plain_errors P -> make_class P d = Ok c -> dict_ok (d_anns d) ->
  (forall b, In (BRecord b) (d_bases d) -> made P b) ->
  dget k (d_anns d) = Some a -> is_field a = true -> ops_for k (d_prebind d) = [] -> Forall callback_free (hint_tokens (declared_hint a)) ->
  exists f, dget k (c_fields c) = Some f /\
    accepts_exactly (call P (f_filler f)) (belongs P (d_style d) [] [] (declared_hint a)) /\
    forall d' c', make_class P d' = Ok c' -> dict_ok (d_anns d') ->
      (forall b, In (BRecord b) (d_bases d') -> made P b) -> In (BRecord c) (d_bases d') ->
      dget k (c_fields c') = Some f.
Proof.
  intros obj ty W P d c k a HE H HO HB E HF EO HT. destruct (c59_fields_proof P d c H HO HB) as [_ FD].
  destruct (FD k a E HF) as (f & Ef & _ & _ & _ & _ & M). rewrite EO in M. exists f. split; [assumption|]. split.
  - eapply c84_exact_proof; eassumption.
  - intros d' c' H' HO' HB' HI. destruct (c59_fields_proof P d' c' H' HO' HB') as [IN _]. eapply IN; eassumption.
Qed.

Lemma c107_inherited_refuted_proof :
  exists obj ty W (P : Py obj ty W) d0 c0 d c t f x w,
    make_class P d0 = Ok c0 /\ d_anns d0 = [("x", AHint (HTy t) [])] /\ d_bases d = [BRecord c0] /\ d_style d = SCheck /\
    make_class P d = Ok c /\ dget "x" (c_fields c) = Some f /\
    isinstance P x t = false /\ call P (f_filler f) x w = (Ok x, w).
Proof.
  exists dobj, dty, demo_state, demo0.
  exists (Decl (TRec 0) false false None SHollow [("x", AHint (HTy TInt) [])] [] (fun _ => NoDefault) [BOther] [] [] (fun _ => ret DNone)).
  eexists.
  exists (Decl (TRec 1) false false None SCheck [("y", AHint (HTy TInt) [])] ["x"] (fun _ => NoDefault)
    [BRecord (match make_class demo0 (Decl (TRec 0) false false None SHollow [("x", AHint (HTy TInt) [])] [] (fun _ => NoDefault) [BOther] [] [] (fun _ => ret DNone)) with
              | Ok c => c | Raise _ => Cls TNone [] true false false false SCheck [] (fun _ => ret DNone) end)] [] [] (fun _ => ret DNone)).
  eexists. exists TInt. eexists. exists (DStr "a"), st0. repeat (split; [reflexivity|]). reflexivity.
Qed.

Lemma c117_default_refuted_proof : forall {obj ty W} (P : Py obj ty W) b c c0 k f0,
  create P b = Ok c -> dict_ok (b_anns b) -> good_bases P b ->
  In (BRecord c0) (b_bases b) -> dget k (c_fields c0) = Some f0 ->
  dget k (c_fields c) = Some f0 /\
  (forall e, dget k (b_body b) = Some e -> f_default f0 <> as_default e ->
     forall f, dget k (c_fields c) = Some f -> f_default f <> as_default e).
Proof.
  intros obj ty W P b c c0 k f0 H HO HB HI HF. unfold create in H. destruct (make_class P (decl_of b)) as [c'|] eqn:E; [|discriminate].
  cbn [obind] in H. injection H as <-. cbn [c_fields].
  destruct (c59_fields_proof P (decl_of b) c' E HO HB) as [IN _]. specialize (IN c0 k f0 HI HF). split; [exact IN|].
  intros e _ HN f Ef. congruence.
Qed.
