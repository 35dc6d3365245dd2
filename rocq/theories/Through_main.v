(** Through_main.v -- proofs of the properties stated in Props_Through.v: Exporting through the class (records/select.py:258-369) *)

From Verif Require Import Base Py Select Filler Classes Spec_Classes Runtime Record Spec_Record Spec_Inst Spec_Copy Through Spec_Through Demo DemoRt DemoCls.
From Verif Require Dict_proofs Filler_proofs Classes_proofs Record_proofs Classes_main Inst_proofs Inst_main Copy_proofs From_main.
Open Scope string_scope.
Open Scope list_scope.

Import Dict_proofs Filler_proofs Classes_proofs Record_proofs Classes_main Inst_proofs Inst_main Copy_proofs From_main.

Section Ops.
Context {obj ty W X : Type}.
Notation cls := (@cls obj ty W).
Notation exp := (exporter obj W X).

(** bound exporters that differ in their owner only *)
Definition moved {C C'} (o : C') (b : bound_exporter obj exp C obj) : bound_exporter obj exp C' obj :=
  BoundExporter (be_descriptor b) o (be_args b) (be_kwargs b) (be_select b).
Lemma do_op_moved : forall C C' (o' : C') (b : bound_exporter obj exp C obj) o,
  do_op (moved o' b) o = obind (do_op b o) (fun b => Ok (moved o' b)).
Proof.
  intros C C' o' b [ss kw|args kw]; [|reflexivity]. cbn. unfold be_do_select. cbn. destruct (sel_merge (be_select b) ss kw); reflexivity.
Qed.
Lemma do_ops_moved : forall C C' (o' : C') l (b : bound_exporter obj exp C obj),
  do_ops (moved o' b) l = obind (do_ops b l) (fun b => Ok (moved o' b)).
Proof.
  intros C C' o'. induction l as [|o r IH]; intro b; [reflexivity|]. cbn [do_ops]. rewrite do_op_moved.
  destruct (do_op b o) as [b1|e]; [|reflexivity]. cbn [obind]. apply IH.
Qed.
Lemma do_ops_owner : forall C l (b b1 : bound_exporter obj exp C obj), do_ops b l = Ok b1 -> be_owner b1 = be_owner b.
Proof.
  intros C. induction l as [|o r IH]; intros b b1 H; cbn [do_ops] in H; [injection H as <-; reflexivity|].
  destruct (do_op b o) as [b2|e] eqn:E; [|discriminate]. apply IH in H. rewrite H.
  destruct o as [ss kw|args kw]; cbn in E; [|injection E as <-; reflexivity]. unfold be_do_select in E.
  destruct (sel_merge (be_select b) ss kw); [|discriminate]. injection E as <-. reflexivity.
Qed.
End Ops.

Section Obj.
Context {obj ty W : Type} (R : Rt obj ty W).
Notation cls := (@cls obj ty W).
Notation field := (@field obj ty W).
Variables (D : obj -> Prop) (eqb : obj -> obj -> bool).
Hypothesis HE : has_eq R D eqb.

Definition wantedb (a : export_args) (black : list nat) (k : string) (f : field) : bool := smem k (e_white a) || negb (tagged black f).
Lemma wantedb_spec : forall a black k f, wantedb a black k f = true <-> wanted a black k f.
Proof. intros. unfold wantedb, wanted. rewrite orb_true_iff, negb_true_iff, smem_In, tagged_false. reflexivity. Qed.

Definition shown (a : export_args) (black : list nat) (d : dict obj) (k : string) (f : field) : option obj :=
  match dget k d with
  | Some v => if to_exportb eqb a black k f v then Some v else None
  | None => if e_defaults a && wantedb a black k f then match f_default f with DefVal x => Some x | _ => None end else None
  end.
Definition shown_all (a : export_args) (black : list nat) (d : dict obj) (fs : dict field) : dict obj :=
  flat_map (fun kf => match shown a black d (fst kf) (snd kf) with Some v => [(fst kf, v)] | None => [] end) fs.

Lemma extract_shown : forall (c : cls) v d a black w, well_named c -> defaults_in D c ->
  has_attributes R w (fun k => In k (keys (c_fields c))) v d ->
  (forall k x, In k (keys (c_fields c)) -> dget k d = Some x -> D x) -> e_black a = BlackSet black ->
  (e_defaults a = true -> forall k f g, dget k (c_fields c) = Some f -> f_default f = DefFactory g -> dget k d <> None) ->
  (forall k f, dget k (c_fields c) = Some f -> f_default f = NoDefault -> wanted a black k f -> dget k d <> None) ->
  to_dict_of R c v a sel_empty w = (Ok (sort_items (e_sort a) (shown_all a black d (c_fields c))), w).
Proof.
  intros c v d a black w [HO HN] HD HA HV EB HF HR. unfold to_dict_of.
  assert (G : forall fs : dict field, (forall k f, In (k, f) fs -> dget k (c_fields c) = Some f) ->
    extract R (missing_ok c sel_empty) v a (map (fun kf => real_field (snd kf)) fs) w = (Ok (shown_all a black d fs), w)).
  { induction fs as [|[k f] r IH]; intro HI; [reflexivity|].
    assert (G : dget k (c_fields c) = Some f) by (apply HI; left; reflexivity).
    assert (KI : In k (keys (c_fields c))) by (eapply dget_some_key; eassumption).
    specialize (IH (fun k f H => HI k f (or_intror H))). specialize (HA k KI).
    cbn [map extract snd]. unfold shown_all. cbn [flat_map fst snd]. fold (shown_all a black d r).
    assert (E1 : extract_one R (missing_ok c sel_empty) v a (real_field f) w =
                 (Ok (match shown a black d k f with Some v => [(k, v)] | None => [] end), w)).
    { unfold extract_one, export_field, shown. cbn [real_field x_name x_tags]. rewrite EB, (HN k f G). fold (tagged black f).
      assert (EX : forall v w1, D v -> export_value R a (XField k (f_tags f) (f_default f)) v w1 =
                   (Ok (smem k (e_white a) || e_defaults a || negb (match f_default f with DefVal d => eqb d v | _ => false end)), w1)).
      { intros x w1 DX. unfold export_value. cbn [x_name x_default].
        destruct (smem k (e_white a)); [reflexivity|]. destruct (e_defaults a); [reflexivity|]. cbn [orb].
        destruct (f_default f) as [|dv|g] eqn:ED; [reflexivity| |reflexivity].
        unfold bind. rewrite (proj1 (HE dv x w1 (HD k f dv G ED) DX)). reflexivity. }
      assert (BODY : wantedb a black k f = true ->
        match getattr R v k w with
        | (Ok v0, w1) => (let* b := export_value R a (real_field f) v0 in ret (if b then [(k, v0)] else [])) w1
        | (Raise e, w1) =>
            if is_AttributeError e then
                if negb (missing_ok c sel_empty k) then (Raise e, w1) else
                if e_defaults a then
                  match x_default (real_field f) with
                  | NoDefault => (Ok [], w1)
                  | DefVal d => (Ok [(k, d)], w1)
                  | DefFactory g => (let* d := g in ret [(k, d)]) w1
                  end
                else (Ok [], w1)
            else (Raise e, w1)
        end = (Ok (match match dget k d with
                         | Some v => if to_exportb eqb a black k f v then Some v else None
                         | None => if e_defaults a && wantedb a black k f then match f_default f with DefVal x => Some x | _ => None end else None
                         end with Some v => [(k, v)] | None => [] end), w)).
      { intro WB. pose proof (HV k) as HVk. destruct (dget k d) as [x|] eqn:EK.
        - rewrite HA. unfold bind. unfold real_field. rewrite (HN k f G), EX by auto. unfold to_exportb. unfold wantedb in WB.
          destruct (smem k (e_white a)); cbn [orb andb] in *; [reflexivity|]. rewrite WB. cbn [andb].
          destruct (e_defaults a || negb (match f_default f with DefVal d0 => eqb d0 x | _ => false end)); reflexivity.
        - destruct HA as [m HA]. rewrite HA. cbn [exc_cls mkexc]. rewrite WB. cbn [andb].
          assert (MO : missing_ok c sel_empty k = has_default f).
          { unfold missing_ok. change (fst (sel_truth (@sel_empty obj))) with false. cbn [andb]. rewrite orb_false_r.
            apply optional_spec; assumption. }
          rewrite MO. rewrite andb_true_r. cbn [real_field x_default]. unfold has_default. destruct (f_default f) as [|dv|g] eqn:ED.
          + destruct (HR k f G ED); [apply wantedb_spec; assumption|assumption].
          + cbn [negb]. destruct (e_defaults a); reflexivity.
          + cbn [negb]. destruct (e_defaults a) eqn:EDf; [|reflexivity]. destruct (HF eq_refl k f g G ED EK). }
      assert (SW : (if smem k (e_white a) then Ok true else Ok (negb (tagged black f))) = Ok (wantedb a black k f))
        by (unfold wantedb; destruct (smem k (e_white a)); reflexivity).
      rewrite SW. destruct (wantedb a black k f) eqn:WB; [exact (BODY eq_refl)|].
      unfold wantedb in WB. apply orb_false_iff in WB. destruct WB as [EW ET]. unfold to_exportb. rewrite EW, ET, andb_false_r.
      destruct (dget k d); reflexivity. }
    unfold bind. rewrite E1, IH. reflexivity. }
  unfold bind. rewrite extraction_empty. rewrite G; [reflexivity|]. intros k f HI. apply dget_In; assumption.
Qed.

Lemma extract_missing : forall (c : cls) v d a black w k f, well_named c -> defaults_in D c ->
  has_attributes R w (fun k => In k (keys (c_fields c))) v d ->
  (forall k x, In k (keys (c_fields c)) -> dget k d = Some x -> D x) -> e_black a = BlackSet black ->
  (e_defaults a = true -> forall k f g, dget k (c_fields c) = Some f -> f_default f = DefFactory g -> dget k d <> None) ->
  dget k (c_fields c) = Some f -> f_default f = NoDefault -> wanted a black k f -> dget k d = None ->
  exists m, to_dict_of R c v a sel_empty w = (Raise (mkexc AttributeError m), w).
Proof.
  intros c v d a black w k0 f0 [HO HN] HD HA HV EB HF G0 ED0 W0 K0. unfold to_dict_of.
  assert (MOD : forall k f, dget k (c_fields c) = Some f -> missing_ok c sel_empty k = has_default f).
  { intros k f G. unfold missing_ok. change (fst (sel_truth (@sel_empty obj))) with false. cbn [andb]. rewrite orb_false_r.
    apply optional_spec; assumption. }
  assert (G : forall fs : dict field, (forall k f, In (k, f) fs -> dget k (c_fields c) = Some f) -> In (k0, f0) fs ->
    exists m, extract R (missing_ok c sel_empty) v a (map (fun kf => real_field (snd kf)) fs) w = (Raise (mkexc AttributeError m), w)).
  { induction fs as [|[k f] r IH]; intros HI H0; [destruct H0|].
    assert (G : dget k (c_fields c) = Some f) by (apply HI; left; reflexivity).
    assert (KI : In k (keys (c_fields c))) by (eapply dget_some_key; eassumption).
    specialize (IH (fun k f H => HI k f (or_intror H))). pose proof (HA k KI) as HK. cbn [map extract snd].
    assert (E1 : (exists h, extract_one R (missing_ok c sel_empty) v a (real_field f) w = (Ok h, w)) /\ (k, f) <> (k0, f0) \/
                 exists m, extract_one R (missing_ok c sel_empty) v a (real_field f) w = (Raise (mkexc AttributeError m), w)).
    { unfold extract_one, export_field. cbn [real_field x_name x_tags]. rewrite EB, (HN k f G). fold (tagged black f).
      destruct (if smem k (e_white a) then Ok true else Ok (negb (tagged black f))) as [[|]|] eqn:EF.
      - destruct (dget k d) as [x|] eqn:EK.
        + left. split; [|intro E; injection E as -> ->; congruence]. rewrite HK. unfold bind, export_value. cbn [real_field x_name x_default].
          destruct (smem (f_name f) (e_white a) || e_defaults a); [eexists; reflexivity|].
          destruct (f_default f) as [|dv|g] eqn:ED; try (eexists; reflexivity).
          unfold bind. rewrite (proj1 (HE dv x w (HD k f dv G ED) (HV k x KI EK))). eexists; reflexivity.
        + destruct HK as [m HK]. rewrite HK. cbn [exc_cls mkexc]. rewrite (MOD k f G). cbn [real_field x_default]. unfold has_default.
          destruct (f_default f) as [|dv|g] eqn:ED; cbn [negb].
          * right. exists m. reflexivity.
          * left. split; [destruct (e_defaults a); eexists; reflexivity|]. intro E. injection E as -> ->. congruence.
          * left. split; [|intro E; injection E as -> ->; congruence].
            destruct (e_defaults a) eqn:EDf; [|eexists; reflexivity]. destruct (HF eq_refl k f g G ED EK).
      - left. split; [eexists; reflexivity|]. intro E. injection E as -> ->. apply wantedb_spec in W0. unfold wantedb in W0.
        destruct (smem k0 (e_white a)); [discriminate|]. cbn in W0. rewrite W0 in EF. discriminate.
      - destruct (smem k (e_white a)); discriminate. }
    unfold bind. destruct E1 as [[[h E1] NE]|[m E1]]; rewrite E1; [|eauto].
    destruct H0 as [H0|H0]; [congruence|]. destruct (IH H0) as [m ->]. eauto. }
  unfold bind. rewrite extraction_empty.
  destruct (G (c_fields c)) as [m ->]; [intros k f HI; apply dget_In; assumption|apply dget_Some_In; assumption|]. eauto.
Qed.

Lemma shown_sub : forall a black d fs k, In k (keys (shown_all a black d fs)) -> In k (keys fs).
Proof.
  intros a black d fs k H. unfold keys in *. apply in_map_iff in H. destruct H as ([k' v] & <- & H). unfold shown_all in H.
  apply in_flat_map in H. destruct H as ([k1 f] & HI & H). cbn in *. destruct (shown a black d k1 f); [|destruct H].
  destruct H as [H|[]]. injection H as -> ->. apply in_map_iff. exists (k', f). auto.
Qed.
Lemma shown_ok : forall a black d fs, dict_ok fs -> dict_ok (shown_all a black d fs).
Proof.
  intros a black d. induction fs as [|[k f] r IH]; intro HO; [constructor|].
  unfold dict_ok in *. change (keys ((k, f) :: r)) with (k :: keys r) in HO. inversion HO as [|? ? N HO']; subst.
  unfold shown_all. cbn [flat_map fst snd]. rewrite keys_app. fold (shown_all a black d r). specialize (IH HO').
  destruct (shown a black d k f); [|exact IH]. cbn. constructor; [|exact IH]. intro HI. apply shown_sub in HI. contradiction.
Qed.
Lemma in_shown : forall a black d fs k v, dict_ok fs ->
  (In (k, v) (shown_all a black d fs) <-> exists f, dget k fs = Some f /\ shown a black d k f = Some v).
Proof.
  intros a black d fs k v HO. unfold shown_all. rewrite in_flat_map. split.
  - intros ([k' f] & HI & H). cbn in H. destruct (shown a black d k' f) as [v'|] eqn:E; [|destruct H]. destruct H as [H|[]]. injection H as -> ->.
    exists f. split; [apply dget_In; assumption|assumption].
  - intros (f & EF & E). exists (k, f). split; [apply dget_Some_In; assumption|]. cbn. rewrite E. left; reflexivity.
Qed.
Lemma shown_keys : forall a black d fs, keys (shown_all a black d fs) =
  keys (filter (fun kf => match shown a black d (fst kf) (snd kf) with Some _ => true | None => false end) fs).
Proof.
  intros a black d. induction fs as [|[k f] r IH]; [reflexivity|]. unfold shown_all. cbn [flat_map fst snd filter]. rewrite keys_app.
  fold (shown_all a black d r). rewrite IH. destruct (shown a black d k f); reflexivity.
Qed.
End Obj.

Lemma c142_same_proof : forall {obj ty W X} (R : Rt obj ty W) ctx parse_args (e : exporter obj W X) l args kw c x w,
  class_of R ctx x w = Some c -> ~ In "instance" (keys kw) ->
  on_class R parse_args e c l (x :: args) kw w = on_record R ctx parse_args e x l args kw w.
Proof.
  intros obj ty W X R ctx parse_args e l args kw c x w HC NI. unfold on_class, on_record.
  change (be_get e c) with (moved c (@be_get obj (exporter obj W X) obj obj e x)). rewrite do_ops_moved.
  destruct (do_ops (be_get e x) l) as [b|er] eqn:E; [|reflexivity]. cbn [obind]. unfold bind, lift. unfold call_class, call_bound.
  pose proof (do_ops_owner _ _ _ _ E) as EO. cbn in EO. rewrite EO.
  destruct (dmem "self" kw); [reflexivity|]. replace (dget "instance" kw) with (@None obj) by (symmetry; apply dget_None; assumption).
  unfold with_class. rewrite HC. reflexivity.
Qed.

Lemma c142_meaning_proof : forall {obj ty W X} (R : Rt obj ty W) parse_args (e : exporter obj W X) l args kw c v w s a d w1,
  ~ In "instance" (keys kw) -> ~ In "self" (keys kw) -> given_select sel_empty l = Ok s ->
  parse_args (if ex_noarg e then given_args l ++ args else given_args l)
             (if ex_noarg e then dupdate (given_keywords l) kw else given_keywords l) = Ok a ->
  class_export R c v a sel_empty ret w = (Ok d, w1) ->
  on_class R parse_args e c l (v :: args) kw w =
  match sel_apply s d with
  | Ok d' => if ex_noarg e then ex_func e d' [] [] w1 else ex_func e d' args kw w1
  | Raise er => (Raise er, w1)
  end.
Proof.
  intros obj ty W X R parse_args e l args kw c v w s a d w1 NI NS HS HP HD.
  assert (DO : forall l (b : bound_exporter obj (exporter obj W X) (@cls obj ty W) obj) s, given_select (be_select b) l = Ok s ->
    do_ops b l = Ok (BoundExporter (be_descriptor b) (be_owner b) (be_args b ++ given_args l)
                       (fold_left (fun kw o => match o with ExportWith _ k => dupdate kw k | Selecting _ _ => kw end) l (be_kwargs b)) s)).
  { clear. induction l as [|[ss k|ea ek] r IH]; intros b s H; cbn in H |- *.
    - injection H as <-. rewrite app_nil_r. destruct b; reflexivity.
    - unfold be_do_select. destruct (sel_merge (be_select b) ss k) as [s1|]; [|discriminate]. cbn in H |- *. rewrite (IH (BoundExporter (be_descriptor b) (be_owner b) (be_args b) (be_kwargs b) s1) s H). reflexivity.
    - rewrite (IH (be_export_with b ea ek) s H). cbn. rewrite app_assoc. reflexivity. }
  unfold on_class, lift. unfold bind at 1. rewrite (DO l (be_get e c) s HS). cbn [be_get be_descriptor be_owner be_args be_kwargs app].
  fold (@given_keywords obj l). unfold call_class. apply dmem_false in NS. rewrite NS. apply dget_None in NI. rewrite NI. cbn [be_owner].
  unfold class_export in HD. apply Record_proofs.bind_ok in HD. destruct HD as (d0 & w2 & HD & H2).
  unfold bind, lift in H2. change (sel_apply (@sel_empty obj) d0) with (Ok d0) in H2. cbn in H2. injection H2 as <- <-.
  unfold run, be_call_args. cbn [be_descriptor be_args be_kwargs be_select].
  destruct (ex_noarg e); unfold bind, lift; rewrite HP, HD; destruct (sel_apply s d0); reflexivity.
Qed.

Lemma c142_errors_proof : forall {obj ty W X} (R : Rt obj ty W) parse_args (e : exporter obj W X) l args kw c v w,
  ~ In "instance" (keys kw) -> ~ In "self" (keys kw) ->
  (forall er, given_select sel_empty l = Raise er -> on_class R parse_args e c l (v :: args) kw w = (Raise er, w)) /\
  (forall s er, given_select sel_empty l = Ok s ->
     parse_args (if ex_noarg e then given_args l ++ args else given_args l)
                (if ex_noarg e then dupdate (given_keywords l) kw else given_keywords l) = Raise er ->
     on_class R parse_args e c l (v :: args) kw w = (Raise er, w)) /\
  (forall s a er w1, given_select sel_empty l = Ok s ->
     parse_args (if ex_noarg e then given_args l ++ args else given_args l)
                (if ex_noarg e then dupdate (given_keywords l) kw else given_keywords l) = Ok a ->
     class_export R c v a sel_empty ret w = (Raise er, w1) ->
     on_class R parse_args e c l (v :: args) kw w = (Raise er, w1)).
Proof.
  intros obj ty W X R parse_args e l args kw c v w NI NS.
  assert (DO : forall l (b : bound_exporter obj (exporter obj W X) (@cls obj ty W) obj),
    do_ops b l = match given_select (be_select b) l with
                 | Ok s => Ok (BoundExporter (be_descriptor b) (be_owner b) (be_args b ++ given_args l)
                       (fold_left (fun kw o => match o with ExportWith _ k => dupdate kw k | Selecting _ _ => kw end) l (be_kwargs b)) s)
                 | Raise er => Raise er
                 end).
  { clear. induction l as [|[ss k|ea ek] r IH]; intros b; cbn.
    - rewrite app_nil_r. destruct b; reflexivity.
    - unfold be_do_select. destruct (sel_merge (be_select b) ss k) as [s1|]; [|reflexivity]. cbn. rewrite (IH (BoundExporter (be_descriptor b) (be_owner b) (be_args b) (be_kwargs b) s1)). reflexivity.
    - rewrite (IH (be_export_with b ea ek)). cbn. rewrite app_assoc. reflexivity. }
  unfold on_class, lift. unfold bind at 1 2 3. rewrite (DO l (be_get e c)). cbn [be_get be_descriptor be_owner be_args be_kwargs be_select app].
  fold (@given_keywords obj l). unfold call_class. apply dmem_false in NS. rewrite NS. apply dget_None in NI. rewrite NI.
  split; [|split].
  - intros er ->. reflexivity.
  - intros s er -> HP. cbn [be_owner]. unfold run, be_call_args. cbn [be_descriptor be_args be_kwargs be_select].
    destruct (ex_noarg e); unfold bind, lift; rewrite HP; reflexivity.
  - intros s a er w1 -> HP HD. cbn [be_owner].
    assert (HD' : to_dict_of R c v a sel_empty w = (Raise er, w1)).
    { unfold class_export in HD. apply Record_proofs.bind_raise in HD. destruct HD as [HD|(d0 & w2 & HD & H2)]; [exact HD|].
      unfold bind, lift in H2. change (sel_apply (@sel_empty obj) d0) with (Ok d0) in H2. discriminate. }
    unfold run, be_call_args. cbn [be_descriptor be_args be_kwargs be_select].
    destruct (ex_noarg e); unfold bind, lift; rewrite HP, HD'; reflexivity.
Qed.

Lemma c142_once_proof : forall {obj ty W X} (R : Rt obj ty W) parse_args (e : exporter obj W X) l args kw c w s,
  given_select sel_empty l = Ok s ->
  (args = [] <-> ~ In "instance" (keys kw)) ->
  exists m, on_class R parse_args e c l args kw w = (Raise (mkexc TypeError m), w).
Proof.
  intros obj ty W X R parse_args e l args kw c w s HS HX. unfold on_class.
  assert (DO : forall l (b : bound_exporter obj (exporter obj W X) (@cls obj ty W) obj) s, given_select (be_select b) l = Ok s -> exists b', do_ops b l = Ok b').
  { clear. induction l as [|[ss k|ea ek] r IH]; intros b s H; cbn in H |- *.
    - eauto.
    - unfold be_do_select. destruct (sel_merge (be_select b) ss k) as [s1|]; [|discriminate]. cbn in H |- *. apply (IH (BoundExporter (be_descriptor b) (be_owner b) (be_args b) (be_kwargs b) s1) s H).
    - apply (IH (be_export_with b ea ek) s H). }
  destruct (DO l (be_get e c) s HS) as [b ->]. unfold bind, lift, call_class. destruct (dmem "self" kw); [eexists; reflexivity|].
  destruct (dget "instance" kw) as [v|] eqn:EI.
  - destruct args as [|x r]; [|eexists; reflexivity]. exfalso. apply (proj1 HX eq_refl). eapply dget_some_key. exact EI.
  - destruct args as [|x r]; [eexists; reflexivity|]. apply dget_None in EI. apply HX in EI. discriminate.
Qed.

Lemma c142_keyword_proof : forall {obj ty W X} (R : Rt obj ty W) ctx parse_args (e : exporter obj W X) l kw c x w,
  class_of R ctx x w = Some c -> ~ In "instance" (keys kw) ->
  on_class R parse_args e c l [] (("instance", x) :: kw) w = on_record R ctx parse_args e x l [] kw w.
Proof.
  intros obj ty W X R ctx parse_args e l kw c x w HC NI. unfold on_class, on_record.
  change (be_get e c) with (moved c (@be_get obj (exporter obj W X) obj obj e x)). rewrite do_ops_moved.
  destruct (do_ops (be_get e x) l) as [b|er] eqn:E; [|reflexivity]. cbn [obind]. unfold bind, lift. unfold call_class, call_bound.
  pose proof (do_ops_owner _ _ _ _ E) as EO. cbn in EO. rewrite EO.
  replace (dmem "self" (("instance", x) :: kw)) with (dmem "self" kw) by reflexivity.
  destruct (dmem "self" kw); [reflexivity|]. cbn [dget]. rewrite String.eqb_refl.
  replace (ddel "instance" (("instance", x) :: kw)) with kw; [unfold with_class; rewrite HC; reflexivity|].
  reflexivity.
Qed.

Lemma c142_object_proof : forall {obj ty W} (R : Rt obj ty W) D eqb c v d a black w,
  made (rt_py R) c -> has_eq R D eqb -> defaults_in D c ->
  has_attributes R w (fun k => In k (keys (c_fields c))) v d ->
  (forall k x, In k (keys (c_fields c)) -> dget k d = Some x -> D x) -> e_black a = BlackSet black ->
  (e_defaults a = true -> forall k f g, dget k (c_fields c) = Some f -> f_default f = DefFactory g -> dget k d <> None) ->
  (forall k f, dget k (c_fields c) = Some f -> f_default f = NoDefault -> wanted a black k f -> dget k d <> None) ->
  exists out, class_export R c v a sel_empty ret w = (Ok out, w) /\ dict_ok out /\
  (forall k x, dget k out = Some x <-> exists f, dget k (c_fields c) = Some f /\
     (dget k d = Some x /\ to_export eqb a black k f x \/
      dget k d = None /\ e_defaults a = true /\ wanted a black k f /\ f_default f = DefVal x)) /\
  (e_sort a = SortNone -> keys out = filter (fun k => dmem k out) (keys (c_fields c))) /\
  (forall le, order_of (e_sort a) = Some le -> total_preorder le -> sorted_by le out).
Proof.
  intros obj ty W R D eqb c v d a black w HM HE HD HA HV EB HF HR. pose proof (made_named R c HM) as HW.
  exists (sort_items (e_sort a) (shown_all eqb a black d (c_fields c))).
  pose proof (shown_ok eqb a black d _ (proj1 HW)) as SO.
  assert (PM : Permutation (shown_all eqb a black d (c_fields c)) (sort_items (e_sort a) (shown_all eqb a black d (c_fields c))))
    by (destruct (e_sort a); [reflexivity|apply sort_perm..]).
  assert (OK : dict_ok (sort_items (e_sort a) (shown_all eqb a black d (c_fields c)))).
  { unfold dict_ok. eapply Permutation_NoDup; [|exact SO]. unfold keys. apply Permutation_map. exact PM. }
  split; [unfold class_export, bind; rewrite (extract_shown R D eqb HE c v d a black w) by assumption; reflexivity|].
  split; [exact OK|].
  assert (GET : forall k x, dget k (sort_items (e_sort a) (shown_all eqb a black d (c_fields c))) = Some x <->
                exists f, dget k (c_fields c) = Some f /\ shown eqb a black d k f = Some x).
  { intros k x. rewrite <- (in_shown eqb a black d (c_fields c) k x (proj1 HW)). split.
    - intro H. apply dget_Some_In in H. eapply Permutation_in; [apply Permutation_sym; exact PM|exact H].
    - intro H. apply dget_In; [exact OK|]. eapply Permutation_in; [exact PM|exact H]. }
  split; [|split].
  - intros k x. rewrite GET. split; intros (f & EF & H); exists f; (split; [assumption|]).
    + unfold shown in H. destruct (dget k d) as [y|].
      * destruct (to_exportb eqb a black k f y) eqn:ET; [|discriminate]. injection H as ->. left. split; [reflexivity|]. apply to_exportb_spec. assumption.
      * destruct (e_defaults a && wantedb a black k f) eqn:ED; [|discriminate]. apply andb_true_iff in ED. destruct ED as [ED WB].
        right. split; [reflexivity|]. split; [assumption|]. split; [apply wantedb_spec; assumption|].
        destruct (f_default f); try discriminate. injection H as ->. reflexivity.
    + unfold shown. destruct H as [[EK HT]|(EK & ED & WT & EF')]; rewrite EK.
      * apply to_exportb_spec in HT. rewrite HT. reflexivity.
      * apply wantedb_spec in WT. rewrite ED, WT, EF'. reflexivity.
  - intro ES. rewrite ES in *. cbn [sort_items] in *. rewrite shown_keys at 1.
    assert (G : forall fs : dict field, (forall k f, In (k, f) fs -> dget k (c_fields c) = Some f) ->
      keys (filter (fun kf => match shown eqb a black d (fst kf) (snd kf) with Some _ => true | None => false end) fs) =
      filter (fun k => dmem k (shown_all eqb a black d (c_fields c))) (keys fs)).
    { induction fs as [|[k f] r IH]; intro HI; [reflexivity|]. specialize (IH (fun k f H => HI k f (or_intror H))).
      change (keys ((k, f) :: r)) with (k :: keys r). cbn [filter fst snd].
      replace (dmem k (shown_all eqb a black d (c_fields c))) with (match shown eqb a black d k f with Some _ => true | None => false end).
      - destruct (shown eqb a black d k f); [cbn; f_equal|]; exact IH.
      - symmetry. unfold dmem. pose proof (GET k) as GK. pose proof (HI k f (or_introl eq_refl)) as G0.
        destruct (shown eqb a black d k f) as [x|] eqn:ESh.
        + replace (dget k (shown_all eqb a black d (c_fields c))) with (Some x); [reflexivity|]. symmetry. apply GK. eauto.
        + destruct (dget k (shown_all eqb a black d (c_fields c))) as [x|] eqn:EG; [|reflexivity].
          destruct (proj1 (GK x) eq_refl) as (f' & EF' & E'). congruence. }
    apply G. intros k f HI. apply dget_In; [apply HW|assumption].
  - intros le EO TP. destruct (e_sort a); try discriminate; injection EO as <-; apply sort_sorted; assumption.
Qed.

Lemma c142_missing_proof : forall {obj ty W X} (R : Rt obj ty W) D eqb c v d a black w k f s (func : dict obj -> M W X),
  made (rt_py R) c -> has_eq R D eqb -> defaults_in D c ->
  has_attributes R w (fun k => In k (keys (c_fields c))) v d ->
  (forall k x, In k (keys (c_fields c)) -> dget k d = Some x -> D x) -> e_black a = BlackSet black ->
  (e_defaults a = true -> forall k f g, dget k (c_fields c) = Some f -> f_default f = DefFactory g -> dget k d <> None) ->
  dget k (c_fields c) = Some f -> f_default f = NoDefault -> wanted a black k f -> dget k d = None ->
  exists m, class_export R c v a s func w = (Raise (mkexc AttributeError m), w).
Proof.
  intros obj ty W X R D eqb c v d a black w k f s func HM HE HD HA HV EB HF G ED WT EK.
  destruct (extract_missing R D eqb HE c v d a black w k f) as [m E]; try assumption; [exact (made_named R c HM)|].
  exists m. unfold class_export, bind. rewrite E. reflexivity.
Qed.

Section Sub.
Context {obj ty W : Type} (P : Py obj ty W).
Notation cls := (@cls obj ty W).
Notation field := (@field obj ty W).

Lemma flat_map_split : forall (b : cls) l, In (BRecord b) l -> exists l1 l2 : dict field, flat_map base_fields l = l1 ++ c_fields b ++ l2.
Proof.
  intros b. induction l as [|x r IH]; intro H; [destruct H|]. destruct H as [->|H].
  - exists [], (flat_map base_fields r). reflexivity.
  - destruct (IH H) as (l1 & l2 & E). exists (base_fields x ++ l1), l2. cbn. rewrite E, !app_assoc. reflexivity.
Qed.

Lemma filter_none : forall {A} (p : A -> bool) l, (forall x, In x l -> p x = false) -> filter p l = [].
Proof. induction l as [|x r IH]; intro H; [reflexivity|]. cbn. rewrite (H x) by (left; reflexivity). apply IH. intros; apply H; right; assumption. Qed.
Lemma filter_every : forall {A} (p : A -> bool) l, (forall x, In x l -> p x = true) -> filter p l = l.
Proof. induction l as [|x r IH]; intro H; [reflexivity|]. cbn. rewrite (H x) by (left; reflexivity). f_equal. apply IH. intros; apply H; right; assumption. Qed.
Lemma filter_filter : forall {A} (p q : A -> bool) l, (forall x, p x = true -> q x = true) -> filter p (filter q l) = filter p l.
Proof.
  intros A p q l H. induction l as [|x r IH]; [reflexivity|]. cbn. destruct (q x) eqn:EQ; cbn.
  - destruct (p x); [f_equal|]; exact IH.
  - destruct (p x) eqn:EP; [rewrite (H x EP) in EQ; discriminate|exact IH].
Qed.

Lemma step_fields : forall d c (b : cls), make_class P d = Ok c -> In (BRecord b) (d_bases d) -> dict_ok (c_fields c) ->
  keys (c_fields b) = filter (fun k => dmem k (c_fields b)) (keys (c_fields c)) /\
  forall k f, dget k (c_fields b) = Some f -> exists g, dget k (c_fields c) = Some g /\ same_field f g.
Proof.
  intros d c b HM HB HO. destruct (make_class_parts P d c HM) as (own & parents & MP).
  destruct (flat_map_split b _ HB) as (l1 & l2 & E).
  pose proof (mp_parents _ _ _ _ _ MP) as EP. rewrite E in EP.
  pose proof (mp_nodup _ _ _ _ _ MP) as ND. pose proof (mp_disjoint _ _ _ _ _ MP) as DJ.
  rewrite EP, !keys_app in ND.
  split.
  - rewrite (mp_keys _ _ _ _ _ MP), EP, !keys_app, !filter_app.
    assert (D1 : forall k, In k (keys l1) -> ~ In k (keys (c_fields b))).
    { intros k H1 H2. apply in_split in H1. destruct H1 as (x1 & x2 & E1). rewrite E1, <- app_assoc in ND. cbn in ND.
      apply NoDup_remove_2 in ND. apply ND. rewrite !in_app_iff. right; right; left; assumption. }
    assert (D2 : forall k, In k (keys l2) -> ~ In k (keys (c_fields b))).
    { intros k H1 H2. apply in_split in H2. destruct H2 as (x1 & x2 & E1). rewrite E1, <- app_assoc in ND. rewrite app_assoc in ND. cbn in ND.
      apply NoDup_remove_2 in ND. apply ND. rewrite !in_app_iff. right; right; assumption. }
    assert (D3 : forall k, In k (keys own) -> ~ In k (keys (c_fields b))).
    { intros k H1 H2. apply (DJ k); [|assumption]. rewrite EP, !keys_app, !in_app_iff. right; left; assumption. }
    rewrite (filter_none _ (keys l1)) by (intros k H; apply dmem_false; auto).
    rewrite (filter_none _ (keys l2)) by (intros k H; apply dmem_false; auto).
    rewrite (filter_none _ (keys own)) by (intros k H; apply dmem_false; auto).
    rewrite (filter_every _ (keys (c_fields b))) by (intros k H; apply dmem_In; assumption).
    rewrite !app_nil_r. reflexivity.
  - intros k f G. assert (G1 : dget k (parents ++ own) = Some f).
    { apply dget_In.
      - unfold dict_ok. rewrite keys_app. apply NoDup_join; [exact (mp_nodup _ _ _ _ _ MP)| |exact DJ].
        pose proof (mp_keys _ _ _ _ _ MP) as MK.
        pose proof HO as NC. unfold dict_ok in NC. rewrite MK in NC. clear -NC. induction (keys parents) as [|k0 r IH]; [exact NC|]. inversion NC; auto.
      - rewrite EP, !in_app_iff. left. right. left. apply dget_Some_In. assumption. }
    destruct (mp_field _ _ _ _ _ MP k f G1) as (g & fl & G2 & SF & _). exists g. auto.
Qed.

Lemma descends_fields : forall (c a : cls), descends P c a -> (forall x, made P x -> dict_ok (c_fields x)) ->
  keys (c_fields a) = filter (fun k => dmem k (c_fields a)) (keys (c_fields c)) /\
  forall k f, dget k (c_fields a) = Some f -> exists g, dget k (c_fields c) = Some g /\ same_field f g.
Proof.
  intros c a HD OK. induction HD as [c|d c b a HM MC HB HD IH].
  - split; [rewrite filter_every; [reflexivity|intros k H0; apply dmem_In; assumption]|]. intros k f G. exists f. split; [assumption|apply same_field_refl].
  - destruct (step_fields d c b HM HB (OK c MC)) as [K1 G1]. destruct IH as [K2 G2]. split.
    + rewrite K2 at 1. rewrite K1, filter_filter; [reflexivity|]. intros k H. apply dmem_true_get in H. destruct H as [f G].
      destruct (G2 k f G) as (g & Gb & _). apply dmem_true_get. eauto.
    + intros k f G. destruct (G2 k f G) as (g & Gb & S1). destruct (G1 k g Gb) as (h & Gc & S2). exists h. split; [assumption|].
      eapply same_field_trans; eassumption.
Qed.
Lemma descends_made : forall (c a : cls), descends P c a -> made P c /\ made P a.
Proof. intros c a HD. induction HD as [c H|d c b a HM MC HB HD [_ IH]]; auto. Qed.
End Sub.

Section Sorting.
Context {obj : Type}.
Lemma insert_filter : forall le (p : string -> bool) kv (l : dict obj), total_preorder le -> sorted_by le l ->
  filter (fun kv => p (fst kv)) (insert_by le kv l) =
  if p (fst kv) then insert_by le kv (filter (fun kv => p (fst kv)) l) else filter (fun kv => p (fst kv)) l.
Proof.
  intros le p [k v] l [TO TR] H. induction H as [|k' v' r HK H IH]; cbn [insert_by filter fst].
  - destruct (p k); reflexivity.
  - destruct (le k k') eqn:E.
    + cbn [filter fst]. destruct (p k) eqn:EP, (p k') eqn:EP'; cbn [insert_by fst]; rewrite ?E; try reflexivity.
      destruct (filter (fun kv => p (fst kv)) r) as [|[k1 v1] r1] eqn:EF; [reflexivity|]. cbn.
      assert (HI : In (k1, v1) r) by (apply (filter_In (fun kv => p (fst kv))); rewrite EF; left; reflexivity).
      rewrite (TR k k' k1 E (HK k1 v1 HI)). reflexivity.
    + cbn [filter fst] in *. rewrite IH. destruct (p k') eqn:EP', (p k) eqn:EP; cbn [insert_by fst]; rewrite ?E; reflexivity.
Qed.
Lemma sort_filter : forall le (p : string -> bool) (l : dict obj), total_preorder le ->
  filter (fun kv => p (fst kv)) (sort_by le l) = sort_by le (filter (fun kv => p (fst kv)) l).
Proof.
  intros le p l TP. induction l as [|kv r IH]; [reflexivity|]. cbn [sort_by fold_right filter].
  change (fold_right (insert_by le) [] r) with (sort_by le r). rewrite insert_filter by (auto; apply sort_sorted; assumption).
  rewrite IH. destruct (p (fst kv)); reflexivity.
Qed.
End Sorting.

Lemma exported_restrict : forall {obj ty W} eqb a black (A c : @cls obj ty W) i, dict_ok (c_fields A) -> dict_ok (c_fields c) ->
  keys (c_fields A) = filter (fun k => dmem k (c_fields A)) (keys (c_fields c)) ->
  (forall k f, dget k (c_fields A) = Some f -> exists g, dget k (c_fields c) = Some g /\ same_field f g) ->
  exported eqb a black A i = filter (fun kv => dmem (fst kv) (c_fields A)) (exported eqb a black c i).
Proof.
  intros obj ty W eqb a black A c i OA OC EK HG.
  assert (SX : forall k (f g : @field obj ty W) v, same_field f g -> to_exportb eqb a black k f v = to_exportb eqb a black k g v).
  { intros k f g v (_ & ED & _ & ET). unfold to_exportb, tagged. rewrite ED, ET. reflexivity. }
  unfold exported.
  assert (G : forall (fs : dict (@field obj ty W)), (forall k g, In (k, g) fs -> dget k (c_fields c) = Some g) ->
    filter (fun kv => dmem (fst kv) (c_fields A)) (exported_from eqb a black fs i) =
    flat_map (fun k => match dget k (c_fields A) with
                       | Some f => match dget k (i_dict i) with Some v => if to_exportb eqb a black k f v then [(k, v)] else [] | None => [] end
                       | None => [] end) (filter (fun k => dmem k (c_fields A)) (keys fs))).
  { induction fs as [|[k g] r IH]; intro HI; [reflexivity|]. specialize (IH (fun k g H => HI k g (or_intror H))).
    unfold exported_from. cbn [flat_map fst snd]. fold (exported_from eqb a black r i).
    change (keys ((k, g) :: r)) with (k :: keys r). cbn [filter]. rewrite filter_app, IH.
    destruct (dmem k (c_fields A)) eqn:EM.
    - cbn [flat_map]. apply dmem_true_get in EM. destruct EM as [f GA]. rewrite GA. destruct (HG k f GA) as (g' & GC & SF).
      rewrite (HI k g (or_introl eq_refl)) in GC. injection GC as <-.
      f_equal. destruct (dget k (i_dict i)) as [v|]; [|reflexivity]. rewrite (SX k f g v SF).
      destruct (to_exportb eqb a black k g v); [|reflexivity]. cbn. unfold dmem. rewrite GA. reflexivity.
    - destruct (dget k (i_dict i)) as [v|]; [|reflexivity]. destruct (to_exportb eqb a black k g v); [|reflexivity]. cbn. rewrite EM. reflexivity. }
  rewrite G by (intros; apply dget_In; assumption). rewrite <- EK.
  assert (G2 : forall (fs : dict (@field obj ty W)), (forall k g, In (k, g) fs -> dget k (c_fields A) = Some g) ->
    exported_from eqb a black fs i =
    flat_map (fun k => match dget k (c_fields A) with
                       | Some f => match dget k (i_dict i) with Some v => if to_exportb eqb a black k f v then [(k, v)] else [] | None => [] end
                       | None => [] end) (keys fs)).
  { induction fs as [|[k g] r IH]; intro HI; [reflexivity|]. specialize (IH (fun k g H => HI k g (or_intror H))).
    unfold exported_from. cbn [flat_map fst snd]. fold (exported_from eqb a black r i).
    change (keys ((k, g) :: r)) with (k :: keys r). cbn [flat_map]. rewrite IH, (HI k g (or_introl eq_refl)). reflexivity. }
  apply G2. intros; apply dget_In; assumption.
Qed.

Lemma lookup_attributes : forall {obj ty W} (R : Rt obj ty W) w x i (N : string -> Prop), lookup R w x = Some i ->
  (forall k, N k -> exists v, dget k (i_dict i) = Some v) -> has_attributes R w N x (i_dict i).
Proof.
  intros obj ty W R w x i N HL HF k HN. destruct (HF k HN) as [v E]. rewrite E. unfold getattr. rewrite HL, E. reflexivity.
Qed.
Lemma shown_exported : forall {obj ty W} eqb a black i (fs : dict (@field obj ty W)),
  (forall k, In k (keys fs) -> exists v, dget k (i_dict i) = Some v) ->
  shown_all eqb a black (i_dict i) fs = exported_from eqb a black fs (i : inst obj ty).
Proof.
  intros obj ty W eqb a black i. induction fs as [|[k f] r IH]; intro H; [reflexivity|].
  unfold shown_all, exported_from. cbn [flat_map fst snd]. fold (shown_all eqb a black (i_dict i) r). fold (exported_from eqb a black r i).
  rewrite IH by (intros; apply H; right; assumption). f_equal. unfold shown. destruct (H k (or_introl eq_refl)) as [v ->].
  destruct (to_exportb eqb a black k f v); reflexivity.
Qed.

Lemma c142_ancestor_proof : forall {obj ty W} (R : Rt obj ty W) ctx D eqb A c x i a black w,
  descends (rt_py R) c A -> has_eq R D eqb -> defaults_in D c -> instance_of R ctx c w x i -> values_in D c i ->
  e_black a = BlackSet black -> (forall le, order_of (e_sort a) = Some le -> total_preorder le) ->
  exists all, to_dict R ctx x a sel_empty w = (Ok all, w) /\
  class_export R A x a sel_empty ret w = (Ok (filter (fun kv => dmem (fst kv) (c_fields A)) all), w).
Proof.
  intros obj ty W R ctx D eqb A c x i a black w HD HE DD HI HV EB HS.
  destruct (descends_made _ _ _ HD) as [MC MA]. pose proof (made_named R c MC) as NC. pose proof (made_named R A MA) as NA.
  destruct (descends_fields (rt_py R) c A HD) as [EK HG]; [intros y HY; apply (made_named R y HY)|].
  exists (sort_items (e_sort a) (exported eqb a black c i)). split; [apply (to_dict_exported R ctx D eqb HE); assumption|].
  assert (SUB : forall k, In k (keys (c_fields A)) -> In k (keys (c_fields c))).
  { intros k H. rewrite EK in H. apply filter_In in H. tauto. }
  assert (PRES : forall k, In k (keys (c_fields A)) -> exists v, dget k (i_dict i) = Some v).
  { intros k H. destruct HI as (_ & _ & _ & _ & HF). apply HF. auto. }
  unfold class_export, bind. rewrite (extract_shown R D eqb HE A x (i_dict i) a black w).
  - unfold lift. rewrite sel_apply_empty. unfold ret. repeat f_equal. rewrite shown_exported by assumption.
    change (exported_from eqb a black (c_fields A) i) with (exported eqb a black A i).
    rewrite (exported_restrict eqb a black A c i (proj1 NA) (proj1 NC) EK HG).
    destruct (e_sort a) as [| | |le]; cbn [sort_items]; [reflexivity|..];
      rewrite (sort_filter _ (fun k => dmem k (c_fields A))); try reflexivity; apply HS; reflexivity.
  - exact NA.
  - intros k f d G ED. destruct (HG k f G) as (g & Gc & (_ & E & _)). apply (DD k g d Gc). congruence.
  - apply lookup_attributes; [apply HI|exact PRES].
  - intros k v H1 H2. apply (HV k v); auto.
  - exact EB.
  - intros _ k f g G _. destruct (PRES k) as [v ->]; [eapply dget_some_key; exact G|discriminate].
  - intros k f G _ _. destruct (PRES k) as [v ->]; [eapply dget_some_key; exact G|discriminate].
Qed.

Lemma c142_from_instance_proof : forall {obj ty W} (R : Rt obj ty W) n c v w,
  isinstance (rt_py R) v (c_ty c) && c_frozen c = false ->
  (forall d w1 m, class_export R c v no_args sel_empty ret w = (Ok d, w1) -> is_mapping R m d ->
     from_instance R n c sel_empty v [] [] w = from_mapping R n c sel_empty [m] [] w1) /\
  (forall e w1, class_export R c v no_args sel_empty (fun d : dict obj => ret d) w = (Raise e, w1) ->
     from_instance R n c sel_empty v [] [] w = (Raise e, w1)).
Proof.
  intros obj ty W R n c v w HF. unfold class_export. unfold from_instance, from_instance_with.
  change (fst (sel_truth (@sel_empty obj))) with false. cbn [negb andb]. rewrite !andb_true_r, andb_comm, HF.
  unfold bind. destruct (to_dict_of R c v no_args sel_empty w) as [[d|e] w1]; unfold lift; rewrite ?sel_apply_empty; unfold ret; split; intros *; try discriminate.
  - intros E HM. injection E as <- <-. unfold from_mapping, from_mapping_with. unfold bind.
    rewrite (chain_map_one R m d w1 HM). cbn [update_dict ret]. unfold lift. change (dupdate d []) with d. rewrite sel_apply_empty. reflexivity.
  - intro E. injection E as <- <-. reflexivity.
Qed.

(** a class with the fields x (default 0) and y, one that inherits from it and adds z, and an
    instance of the latter *)
Definition thr_base := made_of (rdecl 0 false false (Some false) SCheck [("x", (an TInt, DefVal (DInt 0))); ("y", (an TInt, NoDefault))] [] no_post).
Definition thr_decl : @decl dobj dty rstate :=
  Decl (TRec 1) false false (Some false) SCheck [("z", an TInt)] ["x"; "y"] (fun _ => NoDefault) [BRecord thr_base] [] [] no_post.
Definition thr_sub := made_of thr_decl.
Definition thr_inst : inst dobj dty := Inst (TRec 1) [("x", DInt 3); ("y", DInt 1); ("z", DInt 2)] SUnset.
Definition thr_state : rstate := RState [] [thr_inst; Inst (TRec 5) [("y", DInt 9); ("q", DInt 8)] SUnset] [].
Definition thr_ctx (t : dty) : option (@cls dobj dty rstate) := match t with TRec 0 => Some thr_base | TRec 1 => Some thr_sub | _ => None end.
Definition thr_args (l : list dobj) (kw : dict dobj) : outcome export_args :=
  Ok (ExportArgs (dmem "include_defaults" kw) (if dmem "sort" kw then SortDesc else SortNone) (BlackSet []) []).
Definition thr_dump : exporter dobj rstate (dict dobj * nat) := Exporter false (fun d args _ => ret (d, List.length args)).
