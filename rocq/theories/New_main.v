(** New_main.v -- proofs of the properties stated in Props_New.v: constructing and parsing records (RecordBase.__new__, parse) *)

From Verif Require Import Base Py Select Filler Classes Spec_Classes Runtime Record Spec_Record Demo DemoRt DemoCls.
From Verif Require Dict_proofs Filler_proofs Classes_proofs Record_proofs Classes_main.
Open Scope string_scope.
Open Scope list_scope.

Import Dict_proofs Filler_proofs Classes_proofs Record_proofs Classes_main.

Lemma c20_construct_proof : forall {obj ty W} (R : Rt obj ty W) c n kw w x w',
  no_reserved kw -> construct R n c None kw w = (Ok x, w') ->
  known c kw /\ complete c kw /\
  exists self w2, initialized R c kw w self w2 /\ post_new_result R c self w2 = (Ok x, w').
Proof.
  intros obj ty W R c n kw w x w' HR H. destruct n as [|n]; [destruct (construct_O _ _ _ _ _ _ _ H)|].
  rewrite construct_plain in H by assumption. apply build_ok in H. destruct H as (HK & HC & vs & w1 & ds & w2 & HF & HD & HP).
  split; [assumption|]. split; [assumption|]. eexists; eexists. split; [|exact HP].
  exists vs, w1, (set_order R w1 (omitted c kw)), ds, w2. repeat split; auto. apply set_order_perm.
Qed.

Lemma initialized_instance : forall {obj ty W} (R : Rt obj ty W) c kw w self w2,
  dict_ok (c_fields c) -> dict_ok kw -> known c kw -> initialized R c kw w self w2 ->
  exists i, lookup R w2 self = Some i /\ i_cls i = c_ty c /\ type_of (rt_py R) self = c_ty c /\
    i_hash i = (if c_frozen c then SNone else SUnset) /\
    Permutation (keys (i_dict i)) (keys (c_fields c)) /\
    (forall k v, dget k kw = Some v -> exists f y wa wb, dget k (c_fields c) = Some f /\ dget k (i_dict i) = Some y /\
        call (rt_py R) (f_filler f) v wa = (Ok y, wb)) /\
    (forall k f, dget k (c_fields c) = Some f -> dget k kw = None -> exists v wa wb, dget k (i_dict i) = Some v /\ default_of f wa v wb).
Proof.
  intros obj ty W R c kw w self w2 HO HKW HK (vs & w1 & order & ds & w3 & HF & HP & HD & -> & ->).
  eexists. split; [apply (lookup_alloc R c (vs ++ ds) w3)|]. cbn [i_cls i_dict i_hash]. split; [reflexivity|]. split; [apply type_ref|]. split; [reflexivity|].
  assert (KV : keys vs = keys kw) by (eapply filled_keys; eassumption).
  assert (KD : keys ds = order) by (eapply defaulted_keys; eassumption).
  assert (OM : forall k, In k order <-> In k (keys (c_fields c)) /\ ~ In k (keys kw)).
  { intro k. split.
    - intro HI. apply (Permutation_in _ (Permutation_sym HP)) in HI. unfold omitted in HI. apply filter_In in HI.
      rewrite negb_true_iff, dmem_false in HI. assumption.
    - intros [H1 H2]. apply (Permutation_in _ HP). unfold omitted. apply filter_In. rewrite negb_true_iff, dmem_false. auto. }
  split; [|split].
  - apply NoDup_Permutation.
    + rewrite keys_app, KV, KD. apply NoDup_join; [assumption| |].
      * eapply Permutation_NoDup; [exact HP|]. apply NoDup_filter. assumption.
      * intros k H1 H2. apply OM in H2. tauto.
    + assumption.
    + intro k. rewrite keys_app, KV, KD, in_app_iff. split.
      * intros [H|H]; [apply HK; assumption|apply OM in H; tauto].
      * intro H. destruct (in_dec string_dec k (keys kw)) as [HI|HI]; [left; assumption|right; apply OM; auto].
  - intros k v E. destruct (filled_get _ _ _ _ _ _ _ _ HF E) as (f & y & wa & wb & H1 & H2 & H3).
    exists f, y, wa, wb. split; [assumption|]. split; [rewrite dget_app, H2; reflexivity|assumption].
  - intros k f E EN. assert (HI : In k order).
    { apply OM. split; [eapply dget_some_key; eassumption|apply dget_None; assumption]. }
    destruct (defaulted_get _ _ _ _ _ _ HD HI) as (f' & v & wa & wb & H1 & H2 & H3).
    rewrite E in H1. injection H1 as <-. exists v, wa, wb. split; [|assumption].
    rewrite dget_app. replace (dget k vs) with (@None obj); [assumption|]. symmetry. apply dget_None. rewrite KV. apply dget_None. assumption.
Qed.

Lemma c20_instance_proof : forall {obj ty W} (R : Rt obj ty W) c n kw w x w',
  made (rt_py R) c -> dict_ok kw -> no_reserved kw -> only_validates R c ->
  construct R n c None kw w = (Ok x, w') ->
  exists i, lookup R w' x = Some i /\ i_cls i = c_ty c /\ type_of (rt_py R) x = c_ty c /\
    Permutation (keys (i_dict i)) (keys (c_fields c)) /\
    (forall k v, dget k kw = Some v -> exists f y wa wb, dget k (c_fields c) = Some f /\ dget k (i_dict i) = Some y /\
        call (rt_py R) (f_filler f) v wa = (Ok y, wb)) /\
    (forall k f, dget k (c_fields c) = Some f -> dget k kw = None -> exists v wa wb, dget k (i_dict i) = Some v /\ default_of f wa v wb).
Proof.
  intros obj ty W R c n kw w x w' HM HKW HR HN H. apply c20_construct_proof in H; [|assumption].
  destruct H as (HK & HC & self & w2 & HI & HP).
  apply HN in HP. destruct HP as [-> HP].
  destruct (initialized_instance R c kw w self w2) as (i & H1 & H2 & H3 & H4 & H5 & H6 & H7); auto.
  - apply (made_inv (rt_py R) c HM).
  - destruct (HP i H1) as (j & L & EC & ED). exists j. rewrite EC, ED. auto 10.
Qed.

Lemma no_post_validates : forall {obj ty W} (R : Rt obj ty W) c, no_post_new R c -> only_validates R c.
Proof.
  intros obj ty W R c HN self w x w' H. unfold post_new_result, bind in H. rewrite HN, truth_none in H. injection H as <- <-.
  split; [reflexivity|]. intros i E. exists i. auto.
Qed.

Lemma c20_succeeds_proof : forall {obj ty W} (R : Rt obj ty W) c n kw w vs w1,
  no_reserved kw -> known c kw -> complete c kw -> filled R c kw w vs w1 ->
  (forall order, Permutation (omitted c kw) order -> exists ds w2, defaulted c order w1 ds w2) ->
  (forall self w2, initialized R c kw w self w2 -> exists x w3, post_new_result R c self w2 = (Ok x, w3)) ->
  exists x w', construct R (S n) c None kw w = (Ok x, w').
Proof.
  intros obj ty W R c n kw w vs w1 HR HK HC HF HD HP. rewrite construct_plain by assumption.
  destruct (HD (set_order R w1 (omitted c kw)) (set_order_perm R _ _)) as (ds & w2 & HDS).
  destruct (HP (ref R (c_ty c) (List.length (heap R w2))) (snd (alloc R c (vs ++ ds) w2))) as (x & w3 & E).
  { exists vs, w1, (set_order R w1 (omitted c kw)), ds, w2. repeat split; auto. apply set_order_perm. }
  exists x, w3. apply build_ok. split; [assumption|]. split; [assumption|]. exists vs, w1, ds, w2. auto.
Qed.

Lemma c21_unknown_proof : forall {obj ty W} (R : Rt obj ty W) c n kw w k,
  no_reserved kw -> In k (keys kw) -> ~ In k (keys (c_fields c)) ->
  exists m, construct R (S n) c None kw w = (Raise (mkexc TypeError m), w).
Proof.
  intros obj ty W R c n kw w k HR HI HN. rewrite construct_plain by assumption. unfold build.
  destruct (forallb (fun k => dmem k (c_fields c)) (keys kw)) eqn:E.
  - apply forallb_known in E. destruct HN. apply E. assumption.
  - cbn. unfold raise. eauto.
Qed.

Lemma c21_missing_proof : forall {obj ty W} (R : Rt obj ty W) c n kw w,
  no_reserved kw -> ~ complete c kw ->
  (forall x w', construct R n c None kw w <> (Ok x, w')) /\
  (forall vs w1, known c kw -> filled R c kw w vs w1 -> exists m, construct R (S n) c None kw w = (Raise (mkexc TypeError m), w1)).
Proof.
  intros obj ty W R c n kw w HR HN. split.
  - intros x w' H. apply c20_construct_proof in H; [|assumption]. tauto.
  - intros vs w1 HK HF. rewrite construct_plain by assumption. unfold build. apply forallb_known in HK. rewrite HK. cbn [negb].
    eexists. apply bind_raise. right. exists (Some vs), w1. split; [apply fill_kwargs_filled; assumption|].
    destruct (forallb (fun k => dmem k kw) (required_keys (c_fields c))) eqn:E; [apply forallb_complete in E; contradiction|].
    cbn. reflexivity.
Qed.

Lemma c22_positional_proof : forall {obj ty W} (R : Rt obj ty W) c n kw w k v,
  required_keys (c_fields c) = [k] -> k <> "cls" -> k <> "self" -> dget "arg" kw = None -> ~ In k (keys kw) ->
  c_unary c = false \/ kw <> [] ->
  construct R (S n) c (Some v) kw w = construct R (S n) c None (kw ++ [(k, v)]) w.
Proof.
  intros obj ty W R c n kw w k v HK N1 N2 NA HI HU. unfold construct, call_cls.
  assert (G : forall k', k' <> k -> dget k' (kw ++ [(k, v)]) = dget k' kw).
  { intros k' N. rewrite dget_app. cbn. destruct (dget k' kw); [reflexivity|]. destruct (String.eqb_spec k' k); congruence. }
  unfold dmem. rewrite (G "cls"), (G "self") by congruence. destruct (dget "cls" kw); [reflexivity|].
  assert (L : new R (S n) c (Some v) kw = build R c (none R) (kw ++ [(k, v)])).
  { cbn [new]. rewrite HK. cbn [List.length Nat.eqb negb].
    replace (dmem k kw) with false by (symmetry; apply dmem_false; assumption).
    destruct kw as [|kv r]; [|reflexivity]. destruct HU as [->|HU]; [reflexivity|congruence]. }
  rewrite NA. rewrite L. destruct (String.eqb_spec k "arg") as [->|N3].
  - rewrite dget_app, NA. change (dget "arg" [("arg", v)]) with (Some v). cbv iota beta.
    replace (ddel "arg" (kw ++ [("arg", v)])) with kw.
    + rewrite L. reflexivity.
    + symmetry. clear - HI. induction kw as [|[k' v'] r IH]; [reflexivity|].
      cbn [app ddel]. destruct (String.eqb_spec "arg" k') as [E|N]; [destruct HI; left; cbn; congruence|].
      f_equal. apply IH. intro H. apply HI. right. assumption.
  - rewrite (G "arg"), NA by congruence. reflexivity.
Qed.

Lemma c22_both_ways_proof : forall {obj ty W} (R : Rt obj ty W) c n kw w k v,
  required_keys (c_fields c) = [k] -> ~ reserved k -> no_reserved kw -> In k (keys kw) ->
  exists m, construct R (S n) c (Some v) kw w = (Raise (mkexc TypeError m), w).
Proof.
  intros obj ty W R c n kw w k v HK HN HR HI. unfold construct, call_cls, dmem.
  rewrite (reserved_get kw "cls"), (reserved_get kw "arg") by (unfold reserved; auto).
  destruct kw as [|kv r]; [destruct HI|]. eexists. unfold bind. cbn [new]. rewrite HK. cbn [List.length Nat.eqb negb].
  apply dmem_In in HI. unfold bind, ret. rewrite HI. reflexivity.
Qed.

Lemma c22_no_trivial_field_proof : forall {obj ty W} (R : Rt obj ty W) c n kw w v,
  List.length (required_keys (c_fields c)) <> 1 -> no_reserved kw -> kw <> [] \/ c_unary c = false ->
  exists m, construct R (S n) c (Some v) kw w = (Raise (mkexc TypeError m), w).
Proof.
  intros obj ty W R c n kw w v HL HR HU. unfold construct, call_cls, dmem.
  rewrite (reserved_get kw "cls"), (reserved_get kw "arg") by (unfold reserved; auto).
  apply Nat.eqb_neq in HL. eexists. unfold bind. cbn [new]. rewrite HL. cbn [negb].
  destruct kw as [|kv r].
  - destruct HU as [HU| ->]; [congruence|]. unfold bind, ret. rewrite is_none_none. reflexivity.
  - unfold bind, ret. rewrite is_none_none. reflexivity.
Qed.

(** construction from one positional argument with unary parsing *)
Lemma construct_unary : forall {obj ty W} (R : Rt obj ty W) c n a w,
  c_unary c = true ->
  construct R (S n) c (Some a) [] w =
  (let one := Nat.eqb (List.length (required_keys (c_fields c))) 1 in
   let* parsing := catch_parse_failure (parse R n c a) (fun e => if one then ret (none R) else raise e) in
   if negb one then if is_none R parsing then raise (mkexc TypeError "class accepts no positional arguments") else ret parsing
   else match required_keys (c_fields c) with
        | k :: _ => build R c parsing [(k, a)]
        | [] => raise (mkexc RuntimeError "StopIteration")
        end) w.
Proof.
  intros obj ty W R c n a w HU. unfold construct, call_cls, dmem. cbn [dget new]. rewrite HU.
  unfold parse, construct. fold (call_cls R (new R n c) c None). unfold call_cls at 1.
  match goal with |- bind ?m ?k w = ?m' w => change (bind m (fun r => if isinstance (rt_py R) r (c_ty c) && false
     then raise (mkexc TypeError "multiple values for argument 'self'") else ret r) w = m w) end.
  unfold bind at 1. match goal with |- context [match ?m with (_, _) => _ end = _] => destruct m as [[x|e] w1] end; [|reflexivity].
  rewrite andb_false_r. reflexivity.
Qed.

Lemma build_standing_ok : forall {obj ty W} (R : Rt obj ty W) c p kw w s w2,
  p <> none R -> build R c (none R) kw w = (Ok s, w2) ->
  exists m, build R c p kw w = (Raise (mkexc TypeError m), w2).
Proof.
  intros obj ty W R c p kw w s w2 HP H. apply build_ok in H. destruct H as (HK & HC & vs & w1 & ds & w3 & HF & HD & HN).
  unfold build. apply forallb_known in HK. rewrite HK. cbn [negb]. eexists. unfold bind at 1.
  rewrite (proj2 (fill_kwargs_filled R c p kw w vs w1) HF). apply forallb_complete in HC as HC'. rewrite HC'. cbn [negb].
  rewrite omitted_optional by assumption. unfold bind at 1. rewrite (proj2 (fill_defaults_defaulted c _ _ _ _) HD).
  unfold post_new_result, alloc in HN. cbn [snd] in HN. unfold finish, bind, alloc in HN |- *. cbn [fst snd] in HN |- *. rewrite HN.
  rewrite (is_none_false R p HP). reflexivity.
Qed.

Lemma build_standing_raise : forall {obj ty W} (R : Rt obj ty W) c p kw w e w2,
  p <> none R -> (forall w, truth R p w = (Ok true, w)) -> safe_defaults c -> dict_ok (c_fields c) -> known c kw -> complete c kw ->
  build R c (none R) kw w = (Raise e, w2) -> is_Exception e = true ->
  build R c p kw w = (Ok p, w2).
Proof.
  intros obj ty W R c p kw w e w2 HP HT HS HO HK HC H EX. unfold build in *.
  apply forallb_known in HK as HK'. rewrite HK' in *. cbn [negb] in *. apply forallb_complete in HC as HC'. rewrite HC' in *. cbn [negb] in *.
  assert (FK : forall kw w, (forall vs w1, fill_kwargs R c (none R) kw w = (Ok (Some vs), w1) -> fill_kwargs R c p kw w = (Ok (Some vs), w1)) /\
     (forall e w1, fill_kwargs R c (none R) kw w = (Raise e, w1) -> is_Exception e = true -> known c kw -> fill_kwargs R c p kw w = (Ok None, w1))).
  { clear - HP. induction kw as [|[k v] r IH]; intro w; split.
    - intros vs w1 HH. exact HH.
    - intros e w1 HH. discriminate.
    - intros vs w1 HH. apply fill_kwargs_filled in HH. apply fill_kwargs_filled. assumption.
    - intros e w1 HH EX KN. cbn in HH |- *. destruct (dget k (c_fields c)) as [f|] eqn:EF.
      2:{ apply dget_None in EF. destruct EF. apply KN. left; reflexivity. }
      destruct (call (rt_py R) (f_filler f) v w) as [[y|e0] wa].
      + apply bind_raise in HH. destruct HH as [HH|(a & w3 & _ & HH)]; [|discriminate].
        apply IH in HH; [|assumption|intros k' HI; apply KN; right; assumption].
        apply bind_ok. exists None, w1. split; [assumption|reflexivity].
      + rewrite is_none_none in HH. rewrite (is_none_false R p HP). destruct (is_Exception e0) eqn:EX0; cbn in *.
        * injection HH as <- <-. reflexivity.
        * injection HH as <- <-. congruence. }
  apply bind_raise in H. destruct H as [H|(ov & w1 & E & H)].
  - destruct (FK kw w) as [_ F2]. apply bind_ok. exists None, w2. split; [apply (F2 e); auto|reflexivity].
  - destruct ov as [vs|]; [|destruct (fill_kwargs_none R _ _ _ _ E)].
    destruct (FK kw w) as [F1 _]. apply bind_ok. exists (Some vs), w1. split; [apply F1; assumption|].
    apply bind_raise in H. destruct H as [H|(ds & w3 & E2 & H)].
    + exfalso. rewrite omitted_optional in H by assumption.
      assert (DF : forall ks w e w', (forall k, In k ks -> exists f, dget k (c_fields c) = Some f /\ f_default f <> NoDefault) ->
        fill_defaults c ks w <> (Raise e, w')).
      { clear - HS. induction ks as [|k r IH]; intros w e w' HK H; cbn in H; [discriminate|].
        apply bind_raise in H. destruct (HK k (or_introl eq_refl)) as (f & EF & ND). rewrite EF in H. destruct H as [H|(v & w1 & E & H)].
        - unfold make_default in H. destruct (f_default f) as [|d|g] eqn:ED; [congruence|discriminate|].
          destruct (HS k f g EF ED w) as (v & w1 & EG). rewrite EG in H. discriminate.
        - apply bind_raise in H. destruct H as [H|(vs & w2 & E2 & H)]; [|discriminate].
          eapply IH; [|exact H]. intros; apply HK; right; assumption. }
      eapply DF; [|exact H]. intros k HI. apply (Permutation_in _ (Permutation_sym (set_order_perm R w1 _))) in HI.
      unfold omitted in HI. apply filter_In in HI. destruct HI as [HI HN]. destruct (in_keys_get _ _ HI) as [f EF]. exists f.
      split; [assumption|]. intro ND. apply negb_true_iff in HN. apply dmem_false in HN. apply HN. apply HC.
      unfold required_keys. change k with (fst (k, f)). apply in_map. apply filter_In. split; [apply dget_Some_In; assumption|].
      cbn. unfold has_default. rewrite ND. reflexivity.
    + apply bind_ok. exists ds, w3. split; [exact E2|].
      unfold finish, bind, alloc in H |- *. cbn [fst snd] in H |- *.
      match type of H with (match ?m with (_, _) => _ end) = _ => destruct m as [[s|e1] w4] end.
      * rewrite is_none_none in H. discriminate.
      * destruct (is_Exception e1) eqn:EX1; cbn [negb] in H |- *.
        -- unfold none in H. rewrite truth_none in H. cbn in H. injection H as <- <-. rewrite HT. reflexivity.
        -- injection H as <- <-. congruence.
Qed.

Lemma c23_both_proof : forall {obj ty W} (R : Rt obj ty W) c n k a p s w w1 w2,
  c_unary c = true -> required_keys (c_fields c) = [k] -> ~ reserved k ->
  parse R n c a w = (Ok p, w1) -> p <> o_none (rt_py R) ->
  construct R (S n) c None [(k, a)] w1 = (Ok s, w2) ->
  exists m, construct R (S n) c (Some a) [] w = (Raise (mkexc TypeError m), w2).
Proof.
  intros obj ty W R c n k a p s w w1 w2 HU HK HR HP NN HT. rewrite construct_unary by assumption. rewrite HK. cbn [List.length Nat.eqb negb].
  rewrite construct_plain in HT by (intros k' [<-|[]]; assumption).
  destruct (build_standing_ok R c p _ _ _ _ NN HT) as [m E]. exists m.
  unfold bind, catch_parse_failure. rewrite HP. assumption.
Qed.

Lemma c23_only_trivial_proof : forall {obj ty W} (R : Rt obj ty W) c n k a e w w1,
  c_unary c = true -> required_keys (c_fields c) = [k] -> ~ reserved k ->
  parse R n c a w = (Raise e, w1) -> is_ParseFailure e = true ->
  construct R (S n) c (Some a) [] w = construct R (S n) c None [(k, a)] w1.
Proof.
  intros obj ty W R c n k a e w w1 HU HK HR HP HE. rewrite construct_unary by assumption. rewrite HK. cbn [List.length Nat.eqb negb].
  rewrite construct_plain by (intros k' [<-|[]]; assumption).
  unfold bind, catch_parse_failure. rewrite HP, HE. reflexivity.
Qed.

Lemma c23_only_parsing_partial_proof : forall {obj ty W} (R : Rt obj ty W) c n k a p e w w1 w2,
  made (rt_py R) c -> c_unary c = true -> required_keys (c_fields c) = [k] -> ~ reserved k ->
  parse R n c a w = (Ok p, w1) -> p <> o_none (rt_py R) -> (forall w, truth R p w = (Ok true, w)) -> safe_defaults c ->
  construct R (S n) c None [(k, a)] w1 = (Raise e, w2) -> is_Exception e = true ->
  construct R (S n) c (Some a) [] w = (Ok p, w2).
Proof.
  intros obj ty W R c n k a p e w w1 w2 HM HU HK HR HP NN HT HS HC EX. rewrite construct_unary by assumption. rewrite HK. cbn [List.length Nat.eqb negb].
  rewrite construct_plain in HC by (intros k' [<-|[]]; assumption).
  unfold bind, catch_parse_failure. rewrite HP.
  destruct (made_inv (rt_py R) c HM) as [HO _].
  eapply build_standing_raise; try eassumption.
  - intros k' [<-|[]]. cbn. assert (HI : In k (required_keys (c_fields c))) by (rewrite HK; left; reflexivity).
    unfold required_keys, keys in HI. apply in_map_iff in HI. destruct HI as (x & E & HI). apply filter_In in HI. apply in_map_iff. exists x. tauto.
  - intros k' HI. rewrite HK in HI. assumption.
Qed.

Lemma c23_parse_error_proof : forall {obj ty W} (R : Rt obj ty W) c n a e w w1,
  c_unary c = true -> parse R n c a w = (Raise e, w1) -> is_ParseFailure e = false ->
  construct R (S n) c (Some a) [] w = (Raise e, w1).
Proof.
  intros obj ty W R c n a e w w1 HU HP HE. rewrite construct_unary by assumption.
  unfold bind, catch_parse_failure. rewrite HP, HE. reflexivity.
Qed.

Lemma c23_no_trivial_field_proof : forall {obj ty W} (R : Rt obj ty W) c n a w,
  c_unary c = true -> List.length (required_keys (c_fields c)) <> 1 ->
  (forall w1, parse R n c a w <> (Ok (o_none (rt_py R)), w1)) ->
  construct R (S n) c (Some a) [] w = parse R n c a w.
Proof.
  intros obj ty W R c n a w HU HL HN. rewrite construct_unary by assumption. apply Nat.eqb_neq in HL. rewrite HL. cbn [negb].
  unfold bind, catch_parse_failure. destruct (parse R n c a w) as [[p|e] w1] eqn:E.
  - rewrite is_none_false; [reflexivity|]. intro EE. subst p. exact (HN w1 eq_refl).
  - destruct (is_ParseFailure e); reflexivity.
Qed.

(** the trivial reading of an argument, with the parse result [p] standing by *)
Lemma trivial_reading : forall {obj ty W} (R : Rt obj ty W) c n k a p w w1,
  c_unary c = true -> required_keys (c_fields c) = [k] -> parse R n c a w = (Ok p, w1) ->
  construct R (S n) c (Some a) [] w = build R c p [(k, a)] w1.
Proof.
  intros obj ty W R c n k a p w w1 HU HK HP. rewrite construct_unary by assumption. rewrite HK. cbn [List.length Nat.eqb negb].
  unfold bind, catch_parse_failure. rewrite HP. reflexivity.
Qed.
Lemma one_required : forall {obj ty W} (c : @cls obj ty W) k (a : obj), required_keys (c_fields c) = [k] -> known c [(k, a)] /\ complete c [(k, a)].
Proof.
  intros obj ty W c k a HK. split.
  - intros k' [<-|[]]. cbn. assert (HI : In k (required_keys (c_fields c))) by (rewrite HK; left; reflexivity).
    unfold required_keys, keys in HI. apply in_map_iff in HI. destruct HI as (x & E & HI). apply filter_In in HI. apply in_map_iff. exists x. tauto.
  - intros k' HI. rewrite HK in HI. exact HI.
Qed.

Lemma c23_factory_refuted_proof : forall {obj ty W} (R : Rt obj ty W) c n k a p vs k2 f g e w w1 w2 w3,
  c_unary c = true -> required_keys (c_fields c) = [k] -> ~ reserved k ->
  parse R n c a w = (Ok p, w1) -> filled R c [(k, a)] w1 vs w2 ->
  omitted c [(k, a)] = [k2] -> dget k2 (c_fields c) = Some f -> f_default f = DefFactory g -> g w2 = (Raise e, w3) ->
  construct R (S n) c (Some a) [] w = (Raise e, w3) /\ construct R (S n) c None [(k, a)] w1 = (Raise e, w3).
Proof.
  intros obj ty W R c n k a p vs k2 f g e w w1 w2 w3 HU HK HR HP HF HO EF ED EG.
  rewrite (trivial_reading R c n k a p w w1 HU HK HP). rewrite construct_plain by (intros k' [<-|[]]; assumption).
  assert (B : forall q, build R c q [(k, a)] w1 = (Raise e, w3)).
  { intros q. destruct (one_required c k a HK) as [KN CO]. unfold build. apply forallb_known in KN. rewrite KN. cbn [negb]. unfold bind at 1.
    rewrite (proj2 (fill_kwargs_filled R c q [(k, a)] w1 vs w2) HF). apply forallb_complete in CO as CO'. rewrite CO'. cbn [negb].
    rewrite omitted_optional by assumption. rewrite HO. unfold bind at 1.
    assert (S1 : set_order R w2 [k2] = [k2]) by (apply Permutation_length_1_inv; apply set_order_perm).
    rewrite S1. cbn [fill_defaults]. unfold bind at 1. rewrite EF. unfold make_default. rewrite ED, EG. reflexivity. }
  split; apply B.
Qed.

Lemma c24_parse_proof : forall {obj ty W} (R : Rt obj ty W) c n v w os w',
  parser_runs (fun p => run_parser R (construct R n c None) c p v) (c_parsers c) w os w' ->
  snd (parse R n c v w) = w' /\ parse_verdict os (fst (parse R n c v w)).
Proof.
  intros obj ty W R c n v w os w' H. unfold parse, parse_with.
  assert (E : attempt_parsers R (construct R n c None) c (c_parsers c) v w = (Ok (results os), w')).
  { induction H as [w|p r w o w1 os w2 HR HE H IH]; cbn; [reflexivity|]. rewrite HR. destruct o as [x|e].
    - unfold bind. rewrite IH. reflexivity.
    - rewrite (HE e eq_refl). assumption. }
  unfold parse_verdict, bind. rewrite E. destruct (results os) as [|x [|y r]]; cbn; split; try reflexivity; eauto.
Qed.

Lemma c24_order_proof : forall {obj ty W} (R : Rt obj ty W) mk c ps v w,
  (forall p, In p (c_parsers c) -> exists o, run_parser R mk c p v w = (o, w) /\ (forall e, o = Raise e -> is_Exception e = true)) ->
  Permutation (c_parsers c) ps ->
  parse_with R mk (with_parsers c ps) v w = parse_with R mk c v w.
Proof.
  intros obj ty W R mk c ps v w HP HM. unfold parse_with.
  assert (RUN : forall ps, (forall p, In p ps -> In p (c_parsers c)) ->
    exists os, attempt_parsers R mk c ps v w = (Ok (results os), w) /\ os = map (fun p => fst (run_parser R mk c p v w)) ps).
  { clear ps HM. induction ps as [|p r IH]; intro HI; cbn; [exists []; auto|].
    destruct IH as (os & E & EO); [intros; apply HI; right; assumption|].
    destruct (HP p (HI p (or_introl eq_refl))) as (o & ER & EX). rewrite ER. cbn.
    exists (o :: os). split; [|congruence]. destruct o as [x|e].
    - unfold bind. rewrite E. reflexivity.
    - rewrite (EX e eq_refl). exact E. }
  assert (SAME : forall ps, attempt_parsers R mk (with_parsers c ps) (c_parsers (with_parsers c ps)) v w = attempt_parsers R mk c ps v w).
  { assert (G : forall (l : list parser) qs w, attempt_parsers R mk (with_parsers c qs) l v w = attempt_parsers R mk c l v w).
    { induction l as [|p r IH]; intros qs w'; cbn; [reflexivity|]. unfold bind.
      assert (RP : run_parser R mk (with_parsers c qs) p v w' = run_parser R mk c p v w') by (destruct p; reflexivity).
      rewrite RP. destruct (run_parser R mk c p v w') as [[x|e] w1].
      - rewrite IH. reflexivity.
      - destruct (is_Exception e); [apply IH|reflexivity]. }
    intro qs. apply G. }
  unfold bind. rewrite SAME.
  destruct (RUN ps) as (os & E1 & EO1); [intros p HI; apply (Permutation_in _ (Permutation_sym HM)); assumption|].
  destruct (RUN (c_parsers c)) as (os2 & E2 & EO2); [auto|].
  rewrite E1, E2.
  assert (PR : Permutation (results os2) (results os)).
  { subst os os2. unfold results. clear - HM. induction HM; cbn.
    - constructor.
    - apply Permutation_app_head. assumption.
    - rewrite !app_assoc. apply Permutation_app_tail. apply Permutation_app_comm.
    - eapply Permutation_trans; eassumption. }
  destruct (results os2) as [|a [|b r]].
  - apply Permutation_nil in PR. rewrite PR. reflexivity.
  - apply Permutation_length_1_inv in PR. rewrite PR. reflexivity.
  - apply Permutation_length in PR. destruct (results os) as [|a' [|b' r']]; cbn in PR; try discriminate. reflexivity.
Qed.

Lemma c25_constructor_refuted_proof : forall {obj ty W} (R : Rt obj ty W) c n pre k v post f vs w w1 e w2 m,
  no_reserved (pre ++ (k, v) :: post) -> known c (pre ++ (k, v) :: post) ->
  filled R c pre w vs w1 -> dget k (c_fields c) = Some f ->
  call (rt_py R) (f_filler f) v w1 = (Raise e, w2) -> is_Exception e = true -> exc_ctor (exc_cls e) = CtorFails m ->
  exists e', construct R (S n) c None (pre ++ (k, v) :: post) w = (Raise e', w2) /\
    exc_cause e' = None /\ exc_cls e' = UserExc m CtorStr /\ ~ names_field k e e'.
Proof.
  intros obj ty W R c n pre k v post f vs w w1 e w2 m HR HK HF EF EC EX EM. rewrite construct_plain by assumption.
  exists (rewrap k e). split; [eapply build_fill_error; eauto|]. unfold rewrap. rewrite EM. cbn.
  split; [reflexivity|]. split; [reflexivity|]. intros [H _]. discriminate.
Qed.

Lemma c25_names_field_partial_proof : forall {obj ty W} (R : Rt obj ty W) c n pre k v post f vs w w1 e w2,
  no_reserved (pre ++ (k, v) :: post) -> known c (pre ++ (k, v) :: post) ->
  filled R c pre w vs w1 -> dget k (c_fields c) = Some f ->
  call (rt_py R) (f_filler f) v w1 = (Raise e, w2) -> is_Exception e = true -> (forall m, exc_ctor (exc_cls e) <> CtorFails m) ->
  exists e', construct R (S n) c None (pre ++ (k, v) :: post) w = (Raise e', w2) /\ names_field k e e'.
Proof.
  intros obj ty W R c n pre k v post f vs w w1 e w2 HR HK HF EF EC EX NF. rewrite construct_plain by assumption.
  exists (rewrap k e). split; [eapply build_fill_error; eauto|apply rewrap_names; assumption].
Qed.

Lemma c26_defaults_proof : forall {obj ty W} (R : Rt obj ty W) c n kw w x w' k f,
  made (rt_py R) c -> dict_ok kw -> no_reserved kw -> only_validates R c ->
  construct R n c None kw w = (Ok x, w') ->
  dget k (c_fields c) = Some f -> dget k kw = None ->
  exists i v, lookup R w' x = Some i /\ dget k (i_dict i) = Some v /\
    (forall d, f_default f = DefVal d -> v = d) /\
    (forall g, f_default f = DefFactory g -> exists wa wb, g wa = (Ok v, wb)) /\
    f_default f <> NoDefault.
Proof.
  intros obj ty W R c n kw w x w' k f HM HKW HR HN H E EN.
  destruct (c20_instance_proof R c n kw w x w' HM HKW HR HN H) as (i & HL & _ & _ & _ & _ & HD).
  destruct (HD k f E EN) as (v & wa & wb & HV & D). exists i, v. split; [assumption|]. split; [assumption|].
  inversion D as [v0 w1 ED|g v0 w1 w2 ED EG]; subst.
  - split; [intros d E'; congruence|]. split; [intros g E'; congruence|congruence].
  - split; [intros d E'; congruence|]. split; [|congruence]. intros g' E'. assert (g' = g) by congruence. subst. eauto.
Qed.

Lemma with_default_get : forall {obj ty W} (c : @cls obj ty W) k d k',
  dget k' (c_fields (with_default c k d)) =
  match dget k' (c_fields c) with
  | Some f => Some (if String.eqb k k' then Field (f_name f) (f_filler f) d (f_owner f) (f_tags f) else f)
  | None => None
  end.
Proof.
  intros. unfold with_default. cbn. induction (c_fields c) as [|[k0 f0] r IH]; cbn; [reflexivity|].
  destruct (String.eqb_spec k k0) as [->|N]; cbn.
  - destruct (String.eqb_spec k' k0) as [->|N2]; [rewrite String.eqb_refl; reflexivity|assumption].
  - destruct (String.eqb_spec k' k0) as [->|N2]; [|assumption]. destruct (String.eqb_spec k k0); [contradiction|reflexivity].
Qed.
Lemma with_default_keys : forall {obj ty W} (c : @cls obj ty W) k d, keys (c_fields (with_default c k d)) = keys (c_fields c).
Proof.
  intros. unfold with_default, keys. cbn. rewrite map_map. apply map_ext. intros [k0 f0]. cbn. destruct (String.eqb k k0); reflexivity.
Qed.
Lemma with_default_required : forall {obj ty W} (c : @cls obj ty W) k d f,
  dict_ok (c_fields c) -> dget k (c_fields c) = Some f -> f_default f <> NoDefault -> d <> NoDefault ->
  required_keys (c_fields (with_default c k d)) = required_keys (c_fields c).
Proof.
  intros obj ty W c k d f HO E N1 N2. rewrite !required_keys_filter; [|assumption|unfold dict_ok; rewrite with_default_keys; assumption].
  rewrite with_default_keys. apply filter_ext_in. intros k' HI. rewrite with_default_get.
  destruct (dget k' (c_fields c)) as [f'|] eqn:E'; [|reflexivity]. destruct (String.eqb_spec k k') as [->|N]; [|reflexivity].
  rewrite E in E'. injection E' as <-. unfold has_default. cbn. destruct d; [congruence|destruct (f_default f); congruence|destruct (f_default f); congruence].
Qed.

Lemma c26_unused_factories_proof : forall {obj ty W} (R : Rt obj ty W) c n kw w k f d,
  made (rt_py R) c -> no_reserved kw -> In k (keys kw) ->
  dget k (c_fields c) = Some f -> f_default f <> NoDefault -> d <> NoDefault ->
  construct R n (with_default c k d) None kw w = construct R n c None kw w.
Proof.
  intros obj ty W R c n kw w k f d HM HR HI E N1 N2. destruct (made_inv (rt_py R) c HM) as [HO _].
  destruct n as [|n]; [reflexivity|]. rewrite !construct_plain by assumption. unfold build.
  pose proof (with_default_required c k d f HO E N1 N2) as RK.
  assert (OPT : optional_keys (c_fields (with_default c k d)) = optional_keys (c_fields c)).
  { unfold optional_keys. rewrite with_default_keys, RK. reflexivity. }
  assert (DM : forall k', dmem k' (c_fields (with_default c k d)) = dmem k' (c_fields c)).
  { intro k'. unfold dmem. rewrite with_default_get. destruct (dget k' (c_fields c)); reflexivity. }
  assert (FB : forall l, forallb (fun k0 => dmem k0 (c_fields (with_default c k d))) l = forallb (fun k0 => dmem k0 (c_fields c)) l).
  { induction l as [|k0 r IH]; [reflexivity|]. cbn [forallb]. rewrite DM, IH. reflexivity. }
  rewrite FB. destruct (negb _); [reflexivity|].
  assert (FK : forall kw w, fill_kwargs R (with_default c k d) (none R) kw w = fill_kwargs R c (none R) kw w).
  { clear. induction kw as [|[k0 v0] r IH]; intro w; cbn [fill_kwargs]; [reflexivity|]. rewrite with_default_get.
    destruct (dget k0 (c_fields c)) as [f0|]; [|reflexivity].
    replace (f_filler (if String.eqb k k0 then Field (f_name f0) (f_filler f0) d (f_owner f0) (f_tags f0) else f0)) with (f_filler f0)
      by (destruct (String.eqb k k0); reflexivity).
    destruct (call (rt_py R) (f_filler f0) v0 w) as [[y|e] w1]; [|reflexivity]. unfold bind. rewrite IH. reflexivity. }
  unfold bind at 1. unfold bind at 2. rewrite FK. destruct (fill_kwargs R c (none R) kw w) as [[[vs|]|e] w1]; try reflexivity.
  rewrite RK, OPT. destruct (negb (forallb _ (required_keys (c_fields c)))); [reflexivity|].
  assert (FD : forall ks w, ~ In k ks -> fill_defaults (with_default c k d) ks w = fill_defaults c ks w).
  { clear. induction ks as [|k0 r IH]; intros w H; cbn [fill_defaults]; [reflexivity|]. rewrite with_default_get. unfold bind at 1. unfold bind at 2.
    assert (N : k <> k0) by (intro; apply H; left; congruence). apply String.eqb_neq in N. rewrite N.
    destruct (dget k0 (c_fields c)) as [f0|]; [|reflexivity]. destruct (make_default f0 w) as [[v|e] w1]; [|reflexivity].
    unfold bind. rewrite IH; [reflexivity|]. intro; apply H; right; assumption. }
  unfold bind. rewrite FD; [reflexivity|].
  intro HK. apply (Permutation_in _ (Permutation_sym (set_order_perm R w1 _))) in HK. apply filter_In in HK. destruct HK as [_ HK].
  apply negb_true_iff in HK. apply dmem_false in HK. contradiction.
Qed.

Lemma c27_default_refuted_proof : forall {obj ty W} (R : Rt obj ty W) c n kw w x w' k f d,
  made (rt_py R) c -> dict_ok kw -> no_reserved kw -> only_validates R c ->
  construct R n c None kw w = (Ok x, w') ->
  dget k (c_fields c) = Some f -> dget k kw = None -> f_default f = DefVal d ->
  (forall w, exists e w1, call (rt_py R) (f_filler f) d w = (Raise e, w1)) ->
  exists i, lookup R w' x = Some i /\ dget k (i_dict i) = Some d.
Proof.
  intros obj ty W R c n kw w x w' k f d H1 H2 H3 H4 H5 H6 H7 ED _.
  destruct (c26_defaults_proof R c n kw w x w' k f H1 H2 H3 H4 H5 H6 H7) as (i & v & A & B & C & _).
  exists i. rewrite <- (C d ED). auto.
Qed.

Lemma c27_passed_partial_proof : forall {obj ty W} (R : Rt obj ty W) c n kw w x w' k v,
  made (rt_py R) c -> dict_ok kw -> no_reserved kw -> only_validates R c ->
  construct R n c None kw w = (Ok x, w') -> dget k kw = Some v ->
  exists i f y wa wb, lookup R w' x = Some i /\ dget k (c_fields c) = Some f /\ dget k (i_dict i) = Some y /\
    call (rt_py R) (f_filler f) v wa = (Ok y, wb).
Proof.
  intros obj ty W R c n kw w x w' k v HM HKW HR HN H E.
  destruct (c20_instance_proof R c n kw w x w' HM HKW HR HN H) as (i & HL & _ & _ & _ & HF & _).
  destruct (HF k v E) as (f & y & wa & wb & H1 & H2 & H3). exists i, f, y, wa, wb. auto.
Qed.

Lemma c28_post_new_proof : forall {obj ty W} (R : Rt obj ty W) c n kw w vs w1,
  no_reserved kw -> known c kw -> complete c kw -> filled R c kw w vs w1 ->
  (forall order, Permutation (omitted c kw) order -> exists ds w2, defaulted c order w1 ds w2) ->
  exists self w2, initialized R c kw w self w2 /\
    match c_post_new c self w2 with
    | (Raise e, w3) => construct R (S n) c None kw w = (Raise e, w3)
    | (Ok r, w3) => match truth R r w3 with
                    | (Ok true, w4) => construct R (S n) c None kw w = (Ok r, w4)
                    | (Ok false, w4) => construct R (S n) c None kw w = (Ok self, w4)
                    | (Raise e, w4) => construct R (S n) c None kw w = (Raise e, w4)
                    end
    end.
Proof.
  intros obj ty W R c n kw w vs w1 HR HK HC HF HD.
  destruct (HD (set_order R w1 (omitted c kw)) (set_order_perm R _ _)) as (ds & w2 & HDS).
  exists (ref R (c_ty c) (List.length (heap R w2))), (snd (alloc R c (vs ++ ds) w2)). split.
  { exists vs, w1, (set_order R w1 (omitted c kw)), ds, w2. repeat split; auto. apply set_order_perm. }
  rewrite construct_plain by assumption.
  assert (E : build R c (none R) kw w = post_new_result R c (ref R (c_ty c) (List.length (heap R w2))) (snd (alloc R c (vs ++ ds) w2))).
  { unfold build. apply forallb_known in HK. rewrite HK. cbn [negb]. unfold bind at 1.
    rewrite (proj2 (fill_kwargs_filled R c (none R) kw w vs w1) HF). apply forallb_complete in HC as HC'. rewrite HC'. cbn [negb].
    rewrite omitted_optional by assumption. unfold bind at 1. rewrite (proj2 (fill_defaults_defaulted c _ _ _ _) HDS). apply finish_none. }
  rewrite E. unfold post_new_result, bind.
  destruct (c_post_new c _ _) as [[r|e] w3]; [|reflexivity]. destruct (truth R r w3) as [[[|]|e] w4]; reflexivity.
Qed.

Lemma c29_cls_refuted_proof : forall {obj ty W} (R : Rt obj ty W) c n pos kw w,
  In "cls" (keys kw) -> exists m, construct R n c pos kw w = (Raise (mkexc TypeError m), w).
Proof.
  intros obj ty W R c n pos kw w HI. unfold construct, call_cls. apply dmem_In in HI. rewrite HI. eexists. reflexivity.
Qed.

Lemma c29_self_refuted_proof : forall {obj ty W} (R : Rt obj ty W) c n kw w x w',
  In "self" (keys kw) -> construct R n c None kw w = (Ok x, w') -> isinstance (rt_py R) x (c_ty c) = false.
Proof.
  intros obj ty W R c n kw w x w' HI H. unfold construct, call_cls in H. destruct (dmem "cls" kw); [discriminate|].
  minv H. apply dmem_In in HI. rewrite HI in H. rewrite andb_true_r in H. destruct (isinstance (rt_py R) a (c_ty c)) eqn:EI; [discriminate|].
  injection H as <- <-. assumption.
Qed.

Lemma c29_arg_refuted_proof : forall {obj ty W} (R : Rt obj ty W) c n kw w,
  In "arg" (keys kw) -> dict_ok kw -> List.length kw <> 1 -> List.length (required_keys (c_fields c)) <> 1 ->
  exists m, construct R (S n) c None kw w = (Raise (mkexc TypeError m), w).
Proof.
  intros obj ty W R c n kw w HI HO HL HK. unfold construct, call_cls. destruct (dmem "cls" kw); [eexists; reflexivity|].
  destruct (in_keys_get _ _ HI) as [a E]. rewrite E. apply Nat.eqb_neq in HK. cbn [new]. rewrite HK. cbn [negb].
  destruct (ddel "arg" kw) as [|kv r] eqn:ED.
  - exfalso. apply HL. clear HL. destruct kw as [|[k v] r]; [discriminate|]. cbn [ddel] in ED.
    destruct (String.eqb "arg" k); [subst; reflexivity|discriminate].
  - eexists. unfold bind, ret, raise. rewrite is_none_none. reflexivity.
Qed.

Lemma c29_keyword_partial_proof : forall {obj ty W} (R : Rt obj ty W) c n kw w x w' k v,
  made (rt_py R) c -> dict_ok kw -> no_reserved kw -> only_validates R c ->
  construct R n c None kw w = (Ok x, w') -> dget k kw = Some v ->
  exists i f y wa wb, lookup R w' x = Some i /\ dget k (c_fields c) = Some f /\ dget k (i_dict i) = Some y /\
    call (rt_py R) (f_filler f) v wa = (Ok y, wb).
Proof.
 intros. eapply c27_passed_partial_proof; eassumption. Qed.

Lemma c130_true_partial_proof : forall {obj ty W} (R : Rt obj ty W) c n kw w vs w1,
  no_reserved kw -> known c kw -> complete c kw -> filled R c kw w vs w1 ->
  (forall order, Permutation (omitted c kw) order -> exists ds w2, defaulted c order w1 ds w2) ->
  (forall w, truth R (o_none (rt_py R)) w = (Ok false, w)) ->
  exists self w2, initialized R c kw w self w2 /\
    forall r w3, c_post_new c self w2 = (Ok r, w3) ->
      (r = o_none (rt_py R) -> construct R (S n) c None kw w = (Ok self, w3)) /\
      (r <> o_none (rt_py R) -> truth R r w3 = (Ok true, w3) -> construct R (S n) c None kw w = (Ok r, w3)).
Proof.
  intros obj ty W R c n kw w vs w1 H1 H2 H3 H4 H5 HN.
  destruct (c28_post_new_proof R c n kw w vs w1 H1 H2 H3 H4 H5) as (self & w2 & HI & HP).
  exists self, w2. split; [exact HI|]. intros r w3 E. rewrite E in HP. split.
  - intros ->. rewrite HN in HP. exact HP.
  - intros _ T. rewrite T in HP. exact HP.
Qed.

Lemma c130_false_refuted_proof : forall {obj ty W} (R : Rt obj ty W) c n kw w vs w1,
  no_reserved kw -> known c kw -> complete c kw -> filled R c kw w vs w1 ->
  (forall order, Permutation (omitted c kw) order -> exists ds w2, defaulted c order w1 ds w2) ->
  exists self w2, initialized R c kw w self w2 /\
    forall r w3 w4, c_post_new c self w2 = (Ok r, w3) -> truth R r w3 = (Ok false, w4) ->
      construct R (S n) c None kw w = (Ok self, w4).
Proof.
  intros obj ty W R c n kw w vs w1 H1 H2 H3 H4 H5.
  destruct (c28_post_new_proof R c n kw w vs w1 H1 H2 H3 H4 H5) as (self & w2 & HI & HP).
  exists self, w2. split; [exact HI|]. intros r w3 w4 E T. rewrite E, T in HP. exact HP.
Qed.

Lemma c31_false_result_refuted_proof : forall {obj ty W} (R : Rt obj ty W) c n k a p vs e w w1 w2,
  c_unary c = true -> required_keys (c_fields c) = [k] -> ~ reserved k ->
  parse R n c a w = (Ok p, w1) -> p <> o_none (rt_py R) -> (forall w, truth R p w = (Ok false, w)) ->
  filled R c [(k, a)] w1 vs w2 ->
  (forall order, Permutation (omitted c [(k, a)]) order -> exists ds w3, defaulted c order w2 ds w3) ->
  (forall self w3, exists w4, c_post_new c self w3 = (Raise e, w4)) -> is_Exception e = true ->
  exists w', construct R (S n) c (Some a) [] w = (Raise e, w') /\ construct R (S n) c None [(k, a)] w1 = (Raise e, w').
Proof.
  intros obj ty W R c n k a p vs e w w1 w2 HU HK HR HP NN HT HF HD HPN EX.
  rewrite (trivial_reading R c n k a p w w1 HU HK HP). rewrite construct_plain by (intros k' [<-|[]]; assumption).
  destruct (HD (set_order R w2 (omitted c [(k, a)])) (set_order_perm R _ _)) as (ds & w3 & HDS).
  assert (B : forall q, build R c q [(k, a)] w1 = finish R c q (vs ++ ds) w3).
  { intros q. destruct (one_required c k a HK) as [KN CO]. unfold build. apply forallb_known in KN. rewrite KN. cbn [negb]. unfold bind at 1.
    rewrite (proj2 (fill_kwargs_filled R c q [(k, a)] w1 vs w2) HF). apply forallb_complete in CO as CO'. rewrite CO'. cbn [negb].
    rewrite omitted_optional by assumption. unfold bind at 1. rewrite (proj2 (fill_defaults_defaulted c _ _ _ _) HDS). reflexivity. }
  rewrite !B. destruct (HPN (ref R (c_ty c) (List.length (heap R w3))) (snd (alloc R c (vs ++ ds) w3))) as [w4 E]. exists w4.
  rewrite finish_none. unfold post_new_result, bind. rewrite E. split; [|reflexivity].
  unfold finish. unfold bind at 1. unfold alloc in *. cbn [snd fst] in *. unfold bind. rewrite E. rewrite EX. cbn [negb]. rewrite HT. reflexivity.
Qed.

Lemma c31_true_result_partial_proof : forall {obj ty W} (R : Rt obj ty W) c n k a p e w w1 w2,
  made (rt_py R) c -> c_unary c = true -> required_keys (c_fields c) = [k] -> ~ reserved k ->
  parse R n c a w = (Ok p, w1) -> p <> o_none (rt_py R) -> (forall w, truth R p w = (Ok true, w)) -> safe_defaults c ->
  construct R (S n) c None [(k, a)] w1 = (Raise e, w2) -> is_Exception e = true ->
  construct R (S n) c (Some a) [] w = (Ok p, w2).
Proof.
 intros. eapply c23_only_parsing_partial_proof; eassumption. Qed.

Lemma c30_all_optional_refuted_proof : forall {obj ty W} (R : Rt obj ty W) c n m x0 x w w1 w',
  made (rt_py R) c -> c_unary c = true -> required_keys (c_fields c) = [] ->
  c_parsers c = [PFromInstance; PFromJson; PFromMapping] ->
  isinstance (rt_py R) m (c_ty c) = false ->
  (forall k w, In k (keys (c_fields c)) -> exists e, getattr R m k w = (Raise (mkexc AttributeError e), w)) ->
  (forall w, exists e, json_loads R m w = (Raise e, w) /\ is_Exception e = true) ->
  construct R n c None [] w = (Ok x0, w1) ->
  from_mapping R n c sel_empty [m] [] w1 = (Ok x, w') ->
  exists e, construct R (S n) c (Some m) [] w = (Raise (mkexc TypeError e), w').
Proof.
  intros obj ty W R c n m x0 x w w1 w' HM HU HQ HPS HI HA HJ H0 H.
  destruct (made_inv (rt_py R) c HM) as [HO HN].
  rewrite construct_unary by assumption. rewrite HQ. cbn [List.length Nat.eqb negb].
  assert (EX : to_dict_of R c m no_args sel_empty w = (Ok [], w)).
  { assert (EXT : forall fs : dict (@field obj ty W), (forall k f, In (k, f) fs -> f_name f = k /\ In k (keys (c_fields c))) ->
        extract R (missing_ok c sel_empty) m no_args (map (fun kf => real_field (snd kf)) fs) w = (Ok [], w)).
    { induction fs as [|[k0 f0] r IH]; intros HF; [reflexivity|].
      destruct (HF k0 f0 (or_introl eq_refl)) as (EN & HK0).
      cbn [map extract snd]. unfold bind at 1. unfold extract_one at 1, export_field. cbn [no_args e_white e_black smem existsb real_field x_name x_tags].
      replace (existsb (fun _ : nat => false) (f_tags f0)) with false by (induction (f_tags f0); auto).
      cbn [negb]. rewrite EN. destruct (HA k0 w HK0) as [e0 E0]. rewrite E0. change (is_AttributeError (mkexc AttributeError e0)) with true. cbn iota.
      assert (MO : missing_ok c sel_empty k0 = true).
      { unfold missing_ok. cbn. rewrite orb_false_r. apply smem_In. unfold optional_keys. apply filter_In. split; [exact HK0|]. rewrite HQ. reflexivity. }
      rewrite MO. cbn [negb e_defaults no_args]. unfold bind. rewrite IH; [reflexivity|]. intros k1 f1 HI1. apply HF. right; assumption. }
    unfold to_dict_of. unfold bind.
    replace (map snd (extraction c sel_empty)) with (map (fun kf => real_field (snd kf)) (c_fields c)).
    - rewrite EXT; [reflexivity|]. intros k0 f0 HI0. apply (dget_In _ _ _ HO) in HI0 as G. destruct (HN k0 f0 G) as [EN _]. split; [assumption|]. eapply dget_some_key; eassumption.
    - unfold extraction. change (fst (sel_truth (@sel_empty obj))) with false. cbv iota zeta. rewrite map_map. reflexivity. }
  assert (PP : exists e, parse R n c m w = (Raise (mkexc TypeError e), w')).
  { unfold parse, parse_with. rewrite HPS. cbn [attempt_parsers]. unfold bind at 1.
    destruct (HJ w1) as (e2 & E2 & EE).
    assert (R1 : run_parser R (construct R n c None) c PFromInstance m w = (Ok x0, w1)).
    { cbn [run_parser]. unfold from_instance_with. rewrite HI, andb_false_r. unfold bind. rewrite EX. exact H0. }
    assert (R2 : run_parser R (construct R n c None) c PFromJson m w1 = (Raise e2, w1)).
    { cbn [run_parser]. unfold from_json_with, bind. rewrite E2. reflexivity. }
    rewrite R1. unfold bind. rewrite R2, EE.
    unfold from_mapping in H. cbn [run_parser]. rewrite H. eexists. reflexivity. }
  destruct PP as [e PP]. unfold bind, catch_parse_failure. rewrite PP. exists e. reflexivity.
Qed.

Lemma c30_mapping_partial_proof : forall {obj ty W} (R : Rt obj ty W) c n m x w w',
  c_unary c = true -> 2 <= List.length (required_keys (c_fields c)) ->
  c_parsers c = [PFromInstance; PFromJson; PFromMapping] ->
  made (rt_py R) c ->
  isinstance (rt_py R) m (c_ty c) = false ->
  (forall k w, In k (keys (c_fields c)) -> exists e, getattr R m k w = (Raise (mkexc AttributeError e), w)) ->
  (forall w, exists e, json_loads R m w = (Raise e, w) /\ is_Exception e = true) ->
  from_mapping R n c sel_empty [m] [] w = (Ok x, w') -> x <> o_none (rt_py R) ->
  construct R (S n) c (Some m) [] w = (Ok x, w').
Proof.
  intros obj ty W R c n m x w w' HU HL HPS HM HI HA HJ H NN.
  destruct (made_inv (rt_py R) c HM) as [HO HN].
  rewrite construct_unary by assumption. destruct (Nat.eqb_spec (List.length (required_keys (c_fields c))) 1) as [E|_]; [lia|]. cbn [negb].
  assert (EX : exists e, to_dict_of R c m no_args sel_empty w = (Raise (mkexc AttributeError e), w)).
  { assert (EXT : forall fs : dict (@field obj ty W), (forall k f, In (k, f) fs -> f_name f = k /\ In k (keys (c_fields c)) /\
                      (missing_ok c sel_empty k = true -> has_default f = true)) ->
        (exists k f, In (k, f) fs /\ missing_ok c sel_empty k = false) ->
        exists e, extract R (missing_ok c sel_empty) m no_args (map (fun kf => real_field (snd kf)) fs) w = (Raise (mkexc AttributeError e), w)).
    { induction fs as [|[k0 f0] r IH]; intros HF (k & f & HIn & HMk); [destruct HIn|].
      destruct (HF k0 f0 (or_introl eq_refl)) as (EN & HK0 & HD0).
      cbn [map extract snd]. unfold bind at 1. unfold extract_one at 1, export_field. cbn [no_args e_white e_black smem existsb real_field x_name x_tags].
      replace (existsb (fun _ : nat => false) (f_tags f0)) with false by (induction (f_tags f0); auto).
      cbn [negb]. rewrite EN. destruct (HA k0 w HK0) as [e0 E0]. rewrite E0. change (is_AttributeError (mkexc AttributeError e0)) with true. cbn iota.
      destruct (missing_ok c sel_empty k0) eqn:EM; cbn [negb e_defaults no_args].
      - destruct IH as [e1 E1].
        + intros k1 f1 HI1. apply HF. right; assumption.
        + destruct HIn as [HE|HIn]; [injection HE as -> ->; congruence|]. exists k, f. auto.
        + exists e1. unfold bind. rewrite E1. reflexivity.
      - exists e0. reflexivity. }
    destruct (required_keys (c_fields c)) as [|k r] eqn:ER; [cbn in HL; lia|].
    assert (HK : In k (required_keys (c_fields c))) by (rewrite ER; left; reflexivity).
    destruct (EXT (c_fields c)) as [e E].
    - intros k0 f0 HI0. apply (dget_In _ _ _ HO) in HI0 as G. destruct (HN k0 f0 G) as [EN _]. split; [assumption|]. split.
      + eapply dget_some_key; eassumption.
      + intro MO. unfold missing_ok in MO. cbn in MO. rewrite orb_false_r in MO. apply smem_In in MO.
        unfold optional_keys in MO. apply filter_In in MO. destruct MO as [_ MO]. apply negb_true_iff in MO.
        destruct (has_default f0) eqn:HD; [reflexivity|]. exfalso.
        assert (IR : In k0 (required_keys (c_fields c))).
        { unfold required_keys, keys. apply in_map_iff. exists (k0, f0). split; [reflexivity|]. apply filter_In. split; [assumption|]. cbn. rewrite HD. reflexivity. }
        apply smem_In in IR. congruence.
    - unfold required_keys, keys in HK. apply in_map_iff in HK. destruct HK as ([k1 f1] & E1 & HK). cbn in E1. subst k1.
      apply filter_In in HK. destruct HK as [HK HD]. exists k, f1. split; [assumption|].
      unfold missing_ok. cbn. rewrite orb_false_r. apply smem_false. unfold optional_keys. intro HX. apply filter_In in HX. destruct HX as [_ HX].
      rewrite ER in HX. cbn in HX. rewrite String.eqb_refl in HX. discriminate.
    - exists e. unfold to_dict_of. unfold bind.
      replace (map snd (extraction c sel_empty)) with (map (fun kf => real_field (snd kf)) (c_fields c)); [rewrite E; reflexivity|].
      unfold extraction. change (fst (sel_truth (@sel_empty obj))) with false. cbv iota zeta. rewrite map_map. reflexivity. }
  assert (PP : parse R n c m w = (Ok x, w')).
  { unfold parse, parse_with. rewrite HPS. cbn [attempt_parsers]. unfold bind at 1.
    destruct EX as [e1 E1]. destruct (HJ w) as (e2 & E2 & EE).
    assert (R1 : run_parser R (construct R n c None) c PFromInstance m w = (Raise (mkexc AttributeError e1), w)).
    { cbn [run_parser]. unfold from_instance_with. rewrite HI, andb_false_r. unfold bind. rewrite E1. reflexivity. }
    assert (R2 : run_parser R (construct R n c None) c PFromJson m w = (Raise e2, w)).
    { cbn [run_parser]. unfold from_json_with, bind. rewrite E2. reflexivity. }
    rewrite R1. change (is_Exception (mkexc AttributeError e1)) with true. cbn iota. rewrite R2, EE.
    unfold from_mapping in H. cbn [run_parser]. rewrite H. reflexivity. }
  unfold bind, catch_parse_failure. rewrite PP. rewrite is_none_false by assumption. reflexivity.
Qed.
