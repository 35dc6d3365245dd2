(** State_main.v -- proofs of the properties stated in Props_State.v: filling and what happened before (LiteralFiller) *)

From Verif Require Import Base Py Select Filler Spec_Filler Spec_State Classes Spec_Classes Runtime Record Spec_Record Demo DemoRt DemoCls.
From Verif Require Dict_proofs Filler_proofs Filler_obl Classes_proofs Record_proofs Classes_main New_main.
Open Scope string_scope.
Open Scope list_scope.

Import Dict_proofs Filler_proofs Filler_obl Classes_proofs Record_proofs Classes_main New_main.

Lemma c14_literal_refuted_proof :
  exists (seed : Z) (d : @decl dobj dty rstate) c x w1 e w2 e' w3,
    made (rt_py (demo_rt seed)) c /\ make_class rt0 d = Ok c /\ no_post_new (demo_rt seed) c /\
    d_anns d = [("x", AHint (HLiteral 0 [DStr "a"])
      [ATok (TCoerce (CGlobal (fun _ => Ok (fun v => ret (match v with DInt 7 => DStr "a" | _ => v end)))))])] /\
    construct (demo_rt seed) 1 c None [("x", DInt 7)] w0 = (Ok x, w1) /\
    construct (demo_rt seed) 1 c None [("x", DInt 5)] w0 = (Raise e, w2) /\
    construct (demo_rt seed) 1 c None [("x", DInt 7)] w2 = (Raise e', w3).
Proof.
  pose (d := rdecl 0 true false None SCheck [("x", (AHint (HLiteral 0 [DStr "a"])
      [ATok (TCoerce (CGlobal (fun _ => Ok (fun v => ret (match v with DInt 7 => DStr "a" | _ => v end)))))], NoDefault))] [] no_post).
  exists 0%Z, d, (made_of d). do 6 eexists. split.
  { apply made_class with (d := d); [reflexivity| |intros b [E|[]]; discriminate]. repeat constructor; cbn; intuition discriminate. }
  split; [reflexivity|]. split; [intros y w; reflexivity|]. split; [reflexivity|]. split; [reflexivity|]. split; reflexivity.
Qed.

Lemma c14_fields_partial_proof : forall {obj ty W} (P : Py obj ty W) dflt h ops f,
  runtime_blind P ->
  make_filler P dflt h ops = Ok f ->
  Forall token_blind (hint_tokens h ++ map snd ops) ->
  literals_left_alone h ops ->
  forall x w1 w2, same_outcome (fst (call P f x w1)) (fst (call P f x w2)).
Proof.
 intros obj ty W P dflt h ops f RT HM HT HL x w1 w2. eapply make_filler_blind; eassumption. Qed.

Lemma filled_blind : forall {obj ty W} (R : Rt obj ty W) c kw w1 vs w1' w2,
  (forall k f x, dget k (c_fields c) = Some f -> state_blind (call (rt_py R) (f_filler f) x)) ->
  filled R c kw w1 vs w1' -> exists w2', filled R c kw w2 vs w2'.
Proof.
  intros obj ty W R c kw w1 vs w1' w2 HB H. revert w2. induction H as [w|k v r f y ys w wa wb E C _ IH]; intros w2; [eexists; constructor|].
  pose proof (HB k f v E w w2) as S. rewrite C in S. cbn in S.
  destruct (call (rt_py R) (f_filler f) v w2) as [[y'|e'] u] eqn:C2; cbn in S; [|contradiction]. subst y'.
  destruct (IH u) as [u' HF]. exists u'. econstructor; eassumption.
Qed.

Lemma defaulted_total : forall {obj ty W} (c : @cls obj ty W) ks w,
  (forall k, In k ks -> exists f, dget k (c_fields c) = Some f /\ has_default f = true) ->
  (forall k f g w, dget k (c_fields c) = Some f -> f_default f = DefFactory g -> exists v w', g w = (Ok v, w')) ->
  exists ds w', defaulted c ks w ds w'.
Proof.
  intros obj ty W c ks; induction ks as [|k r IH]; intros w HK HF; [exists [], w; constructor|].
  destruct (HK k (or_introl eq_refl)) as (f & E & D).
  assert (exists v w', default_of f w v w') as (v & w' & DO).
  { unfold has_default in D. destruct (f_default f) eqn:FD; [discriminate| |].
    - eexists; eexists. econstructor. eassumption.
    - destruct (HF k f _ w E FD) as (v & w' & G). exists v, w'. eapply default_made; eassumption. }
  destruct (IH w') as (ds & w2 & HD); [intros; apply HK; right; assumption|assumption|].
  exists ((k, v) :: ds), w2. econstructor; eassumption.
Qed.

Lemma c14_records_partial_proof : forall {obj ty W} (R : Rt obj ty W) c n kw w1 w2 x1 w1',
  made (rt_py R) c -> no_post_new R c -> no_reserved kw -> dict_ok kw ->
  runtime_blind (rt_py R) ->
  (forall k f, dget k (c_fields c) = Some f -> exists dflt h ops,
     make_filler (rt_py R) dflt h ops = Ok (f_filler f) /\
     Forall token_blind (hint_tokens h ++ map snd ops) /\ literals_left_alone h ops) ->
  (forall k f g w, dget k (c_fields c) = Some f -> f_default f = DefFactory g -> exists v w', g w = (Ok v, w')) ->
  construct R n c None kw w1 = (Ok x1, w1') ->
  exists x2 w2' i1 i2,
    construct R n c None kw w2 = (Ok x2, w2') /\
    lookup R w1' x1 = Some i1 /\ lookup R w2' x2 = Some i2 /\
    forall k, In k (keys kw) -> dget k (i_dict i1) <> None /\ dget k (i_dict i1) = dget k (i_dict i2).
Proof.
  intros obj ty W R c n kw w1 w2 x1 w1' HM HN HR HO RT HF HD H.
  destruct n as [|n]; [destruct (construct_O _ _ _ _ _ _ _ H)|]. pose proof H as H0.
  rewrite construct_plain in H by assumption. apply build_ok in H. destruct H as (HK & HC & vs & wa & ds & wb & F1 & D1 & P1).
  assert (B : forall k f x, dget k (c_fields c) = Some f -> state_blind (call (rt_py R) (f_filler f) x)).
  { intros k f x E. destruct (HF k f E) as (dflt & h & ops & M & T & L). eapply make_filler_blind; eassumption. }
  destruct (filled_blind R c kw w1 vs wa w2 B F1) as [wc F2].
  destruct (defaulted_total c (set_order R wc (omitted c kw)) wc) as (ds2 & wd & D2); [|assumption|].
  { intros k I. apply (Permutation_in _ (Permutation_sym (set_order_perm R wc _))) in I. unfold omitted in I. apply filter_In in I as [I J].
    rewrite negb_true_iff, dmem_false in J. apply in_keys_get in I as [f E]. exists f. split; [assumption|].
    destruct (has_default f) eqn:HDF; [reflexivity|]. exfalso. apply J. apply HC. unfold required_keys, keys.
    apply in_map_iff. exists (k, f). split; [reflexivity|]. apply filter_In. split; [apply dget_Some_In; assumption|]. cbn. rewrite HDF. reflexivity. }
  assert (C2 : exists x2 w2', construct R (S n) c None kw w2 = (Ok x2, w2')).
  { eexists; eexists. rewrite construct_plain by assumption. apply build_ok. split; [assumption|]. split; [assumption|].
    exists vs, wc, ds2, wd. split; [assumption|]. split; [assumption|]. unfold post_new_result, bind. rewrite HN, truth_none. reflexivity. }
  destruct C2 as (x2 & w2' & C2). exists x2, w2'.
  destruct (c20_instance_proof R c (S n) kw w1 x1 w1' HM HO HR (no_post_validates R c HN) H0) as (i1 & L1 & _ & _ & _ & V1 & _).
  destruct (c20_instance_proof R c (S n) kw w2 x2 w2' HM HO HR (no_post_validates R c HN) C2) as (i2 & L2 & _ & _ & _ & V2 & _).
  exists i1, i2. split; [assumption|]. split; [assumption|]. split; [assumption|].
  intros k I. apply in_keys_get in I as [v E].
  destruct (V1 k v E) as (f & y & u1 & u2 & G1 & S1 & K1). destruct (V2 k v E) as (f' & y' & u3 & u4 & G2 & S2 & K2).
  rewrite G1 in G2. injection G2 as <-. pose proof (B k f v G1 u1 u3) as SB. rewrite K1, K2 in SB. cbn in SB. subst y'.
  rewrite S1, S2. split; [discriminate|reflexivity].
Qed.
