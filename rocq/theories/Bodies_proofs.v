(** Bodies_proofs.v -- lemmas about class bodies. *)
From Verif Require Import Base Dict_proofs Py Filler Spec_Filler Filler_proofs Classes Spec_Classes Classes_proofs Inst_proofs Hist_proofs Bodies Spec_Bodies.
From Coq Require Import Sorted.

Section Bodies.
Context {obj ty W : Type} (P : Py obj ty W).
Notation entry := (@entry obj W).
Notation namespace := (@namespace obj W).
Notation body := (@body obj ty W).

Lemma find_in_nearest : forall k (e : entry) l, find_in l k = Some e <-> nearest k e l.
Proof.
  intros k e. induction l as [|n r IH]; cbn.
  - split; [discriminate|]. intro H. inversion H.
  - destruct (dget k n) as [e'|] eqn:E.
    + split; [intro H; injection H as ->; constructor; assumption|]. intro H. inversion H; subst; congruence.
    + rewrite IH. split; [intro H; constructor 2; assumption|]. intro H. inversion H; subst; [congruence|assumption].
Qed.

Lemma find_in_none : forall k (l : list namespace), (forall n, In n l -> dget k n = None) -> find_in l k = None.
Proof.
  intros k. induction l as [|n r IH]; intro H; cbn; [reflexivity|]. rewrite (H n) by (left; reflexivity).
  apply IH. intros; apply H; right; assumption.
Qed.

Lemma find_in_key : forall k (e : entry) l, find_in l k = Some e -> In k (flat_map keys l).
Proof.
  intros k e. induction l as [|n r IH]; cbn; [discriminate|]. intro H. apply in_or_app.
  destruct (dget k n) as [e'|] eqn:E; [left; eapply dget_some_key; eassumption|right; auto].
Qed.

Lemma find_in_app : forall k (l m : list namespace), find_in (l ++ m) k = match find_in l k with Some e => Some e | None => find_in m k end.
Proof. intros k l m. induction l as [|n r IH]; cbn; [reflexivity|]. destruct (dget k n); [reflexivity|exact IH]. Qed.

Lemma create_inv : forall b c, create P b = Ok c ->
  exists c0, make_class P (decl_of b) = Ok c0 /\ c_fields c = c_fields c0 /\ c_parsers c = find_parsers b (own_names P b).
Proof. intros b c H. unfold create in H. oinv H. injection H as <-. eauto. Qed.

Lemma own_fields_finally : forall d s, d_frozen d = true ->
  own_fields P (finally s d) (own_hints (d_anns (finally s d)) (d_inherited_anns d)) =
  own_fields P d (own_hints (d_anns d) (d_inherited_anns d)).
Proof.
  intros d s HF. cbn [d_anns finally].
  set (g := fun ka : string * @ann obj ty W => (fst ka, if s (fst ka) then AFinal (snd ka) [] else snd ka)).
  assert (GET : forall k l, dget k (map g l) = match dget k l with Some a => Some (if s k then AFinal a [] else a) | None => None end).
  { intros k. induction l as [|[k' a] r IH]; cbn; [reflexivity|]. destruct (String.eqb_spec k k') as [->|]; [reflexivity|exact IH]. }
  assert (OH : own_hints (map g (d_anns d)) (d_inherited_anns d) = map g (own_hints (d_anns d) (d_inherited_anns d))).
  { unfold own_hints. rewrite map_app. f_equal.
    - induction (firsts (d_inherited_anns d)) as [|k r IH]; cbn; [reflexivity|]. rewrite GET, map_app, IH.
      f_equal. destruct (dget k (d_anns d)); reflexivity.
    - induction (d_anns d) as [|[k a] r IH]; cbn; [reflexivity|]. destruct (smem k (d_inherited_anns d)); cbn; [exact IH|]. f_equal. exact IH. }
  rewrite OH. clear OH. induction (own_hints (d_anns d) (d_inherited_anns d)) as [|[k a] r IH]; [reflexivity|].
  cbn [map own_fields]. cbn [g fst snd]. rewrite IH. cbn [finally d_frozen d_ty d_static].
  destruct (s k); [|reflexivity]. cbn [from_type_hint]. rewrite HF. cbn [negb].
  destruct (from_type_hint P true (d_ty d) k (d_static d k) a) as [[f|]|e]; cbn; try reflexivity.
  destruct f. reflexivity.
Qed.

Lemma in_own_hints : forall (anns : dict (@ann obj ty W)) inh k a, dget k anns = Some a -> In (k, a) (own_hints anns inh).
Proof.
  intros anns inh k a E. unfold own_hints. apply in_or_app. destruct (smem k inh) eqn:S.
  - left. apply in_flat_map. exists k. split; [apply firsts_In; apply smem_In; assumption|]. rewrite E. left; reflexivity.
  - right. apply filter_In. split; [apply dget_Some_In; assumption|]. cbn. rewrite S. reflexivity.
Qed.

Lemma own_names_declares : forall b c, make_class P (decl_of b) = Ok c -> dict_ok (b_anns b) ->
  forall k, In k (own_names P b) <-> declares b k.
Proof.
  intros b c H HO k. unfold make_class in H. oinv H. unfold own_names.
  change (own_hints (b_anns b) (b_inherited_anns b)) with (own_hints (d_anns (decl_of b)) (d_inherited_anns (decl_of b))).
  rewrite Ha. rewrite (own_fields_keys P _ _ _ Ha). unfold declares. split.
  - intro HI. apply in_map_iff in HI. destruct HI as ([k' x] & <- & HI). apply filter_In in HI. destruct HI as [HI HF].
    exists x. split; [|exact HF]. eapply own_hints_In; [exact HO|exact HI].
  - intros (x & E & HF). apply in_map_iff. exists (k, x). split; [reflexivity|]. apply filter_In. split; [apply in_own_hints; exact E|exact HF].
Qed.

Lemma with_fields_get : forall (b : body) k fs, dget k (with_fields b fs) = if smem k fs then Some (Entry (b_field b k) None None) else dget k (b_body b).
Proof.
  intros b k fs. unfold with_fields. generalize (b_body b) as n. induction fs as [|k' r IH]; intro n; [reflexivity|].
  cbn [fold_left]. rewrite IH, dget_dset. unfold smem. cbn [existsb]. destruct (String.eqb_spec k k') as [->|]; cbn [orb]; destruct (existsb _ r); reflexivity.
Qed.

(** ** dir *)

Lemma insert_str_perm : forall k l, Permutation (insert_str k l) (k :: l).
Proof.
  intros k. induction l as [|x r IH]; cbn; [reflexivity|]. destruct (String.leb k x); [reflexivity|].
  rewrite IH. constructor.
Qed.
Lemma sort_strings_perm : forall l, Permutation (sort_strings l) l.
Proof. induction l as [|x r IH]; cbn; [constructor|]. rewrite insert_str_perm, IH. reflexivity. Qed.
Notation sle := (fun k k' => String.leb k k' = true).
Lemma insert_str_sorted : forall k l, StronglySorted sle l -> StronglySorted sle (insert_str k l).
Proof.
  intros k l H. induction H as [|x r HS IH HF]; cbn; [repeat constructor|].
  destruct (String.leb k x) eqn:E.
  - constructor; [constructor; assumption|]. constructor; [assumption|].
    eapply Forall_impl; [|exact HF]. cbn. intros y HY. eapply string_leb_trans; eassumption.
  - constructor; [assumption|]. apply (Permutation_Forall (Permutation_sym (insert_str_perm k r))). constructor; [|assumption].
    destruct (String.leb_total k x); congruence.
Qed.
Lemma dir_sorted : forall l : list namespace, StronglySorted sle (dir l).
Proof. intro l. unfold dir. induction (nodup string_dec (flat_map keys l)) as [|x r IH]; cbn; [constructor|]. apply insert_str_sorted. exact IH. Qed.
Lemma dir_NoDup : forall l : list namespace, NoDup (dir l).
Proof. intro l. unfold dir. eapply Permutation_NoDup; [symmetry; apply sort_strings_perm|apply NoDup_nodup]. Qed.
Lemma in_dir : forall k (l : list namespace), In k (dir l) <-> In k (flat_map keys l).
Proof.
  intros k l. unfold dir. split; intro H.
  - eapply nodup_In. eapply Permutation_in; [apply sort_strings_perm|exact H].
  - eapply Permutation_in; [symmetry; apply sort_strings_perm|]. apply nodup_In. exact H.
Qed.
Lemma filter_sorted : forall {A} (R : A -> A -> Prop) g l, StronglySorted R l -> StronglySorted R (filter g l).
Proof.
  intros A R g l H. induction H as [|x r HS IH HF]; cbn; [constructor|]. destruct (g x); [|assumption]. constructor; [assumption|].
  rewrite Forall_forall in *. intros y HY. apply filter_In in HY. apply HF. tauto.
Qed.

(** ** Parsers *)

Lemma find_own : forall (b : body) k, (forall k, In k (own_names P b) <-> declares b k) ->
  find_in (with_fields b (own_names P b) :: b_mro b) k =
  if smem k (own_names P b) then Some (Entry (b_field b k) None None) else find_in (b_body b :: b_mro b) k.
Proof. intros b k OWN. cbn. rewrite with_fields_get. destruct (smem k (own_names P b)); reflexivity. Qed.

Lemma find_parser : forall (b : body) k p, (forall k, In k (own_names P b) <-> declares b k) ->
  (exists e, find_in (with_fields b (own_names P b) :: b_mro b) k = Some e /\ n_parser e = Some p) <-> parser_at b k p.
Proof.
  intros b k p OWN. rewrite find_own by assumption. unfold parser_at. destruct (smem k (own_names P b)) eqn:S.
  - apply smem_In in S. apply OWN in S. split; [|tauto]. intros (e & E & EP). injection E as <-. discriminate.
  - apply smem_false in S. rewrite OWN in S. split.
    + intros (e & E & EP). apply find_in_nearest in E. split; [assumption|]. eauto.
    + intros (_ & e & E & EP). apply find_in_nearest in E. eauto.
Qed.

Lemma parser_in_dir : forall b k p, (forall k, In k (own_names P b) <-> declares b k) -> parser_at b k p ->
  In k (dir (with_fields b (own_names P b) :: b_mro b)).
Proof.
  intros b k p OWN HP. apply in_dir. apply find_parser in HP; [|assumption]. destruct HP as (e & E & _). eapply find_in_key; eassumption.
Qed.

Lemma sel_parser : forall b k p, In k (dir (with_fields b (own_names P b) :: b_mro b)) ->
  (forall k, In k (own_names P b) <-> declares b k) ->
  match getattr_static (with_fields b (own_names P b)) b k with Some e => match n_parser e with Some p => Some p | None => None end | None => None end = Some p
  <-> parser_at b k p.
Proof.
  intros b k p HK OWN. rewrite <- find_parser by assumption. unfold getattr_static.
  change (with_fields b (own_names P b) :: b_mro b ++ b_meta b) with ((with_fields b (own_names P b) :: b_mro b) ++ b_meta b).
  rewrite find_in_app. destruct (find_in (with_fields b (own_names P b) :: b_mro b) k) as [e|] eqn:E.
  - destruct (n_parser e) as [q|] eqn:EP; split.
    + intro H. injection H as ->. eauto.
    + intros (e' & E' & EP'). congruence.
    + discriminate.
    + intros (e' & E' & EP'). congruence.
  - exfalso. apply in_dir in HK. apply in_flat_map in HK. destruct HK as (n & HI & HK).
    destruct (in_keys_get _ _ HK) as [e Ee]. clear - E HI Ee. revert E HI.
    generalize (with_fields b (own_names P b) :: b_mro b) as l. induction l as [|m r IH]; cbn; [tauto|].
    intros E [->|HI]; [rewrite Ee in E; discriminate|]. destruct (dget k m); [discriminate|]. auto.
Qed.

Lemma parser_at_fun : forall (b : body) k p p', parser_at b k p -> parser_at b k p' -> p = p'.
Proof.
  intros b k p p' (_ & e & HN & EP) (_ & e' & HN' & EP'). apply find_in_nearest in HN, HN'. congruence.
Qed.

(** ** Sorted by name, there is only one order *)

Notation ple := (fun a a' => String.leb (fst a) (fst a') = true).
Lemma insert_name_perm : forall {A} k (v : A) l, Permutation (insert_name k v l) ((k, v) :: l).
Proof.
  intros A k v. induction l as [|[k' v'] r IH]; cbn; [reflexivity|]. destruct (String.leb k k'); [reflexivity|].
  rewrite IH. constructor.
Qed.
Lemma sort_names_perm : forall {A} (l : list (string * A)), Permutation (sort_names l) l.
Proof. intros A. induction l as [|[k v] r IH]; cbn; [constructor|]. rewrite insert_name_perm. constructor. exact IH. Qed.
Lemma sort_names_sorted : forall {A} (l : list (string * A)), StronglySorted ple (sort_names l).
Proof.
  intros A. induction l as [|[k v] r IH]; cbn; [constructor|]. fold (sort_names r). revert IH. generalize (sort_names r) as m.
  intros m H. induction H as [|[k' v'] m HS IH HF]; cbn; [repeat constructor|].
  destruct (String.leb k k') eqn:E.
  - constructor; [constructor; assumption|]. constructor; [assumption|].
    eapply Forall_impl; [|exact HF]. cbn. intros y HY. eapply string_leb_trans; eassumption.
  - constructor; [assumption|]. apply (Permutation_Forall (Permutation_sym (insert_name_perm k v m))). constructor; [|assumption].
    cbn. destruct (String.leb_total k k'); congruence.
Qed.

Lemma sorted_unique : forall {A} (l m : list (string * A)), StronglySorted ple l -> StronglySorted ple m -> NoDup (keys l) ->
  Permutation l m -> l = m.
Proof.
  intros A l. induction l as [|[k v] r IH]; intros m HL HM ND HP; [apply Permutation_nil in HP; congruence|].
  destruct m as [|[k' v'] m]; [apply Permutation_sym, Permutation_nil in HP; discriminate|].
  inversion HL as [|? ? HL1 HL2]; subst. inversion HM as [|? ? HM1 HM2]; subst. cbn in ND. inversion ND as [|? ? N1 N2]; subst.
  assert (E : (k, v) = (k', v')).
  { assert (I1 : In (k', v') ((k, v) :: r)) by (eapply Permutation_in; [symmetry; exact HP|left; reflexivity]).
    assert (I2 : In (k, v) ((k', v') :: m)) by (eapply Permutation_in; [exact HP|left; reflexivity]).
    destruct I1 as [I1|I1]; [assumption|]. destruct I2 as [I2|I2]; [congruence|].
    rewrite Forall_forall in HL2, HM2. specialize (HL2 _ I1). specialize (HM2 _ I2). cbn in *.
    assert (k = k') by (apply String.leb_antisym; assumption). subst. exfalso. apply N1. change k' with (fst (k', v')). apply in_map. assumption. }
  injection E as <- <-. f_equal. apply IH; try assumption. eapply Permutation_cons_inv. exact HP.
Qed.

Definition user_part (l : list (string * @parser obj W)) : dict (obj -> M W obj) :=
  flat_map (fun kp => match builtin (obj:=obj) (W:=W) (fst kp), snd kp with None, PUser f => [(fst kp, f)] | _, _ => [] end) l.

Lemma as_assumed : forall b c names, create P b = Ok c -> dict_ok (b_anns b) -> builtins_stand b ->
  NoDup names -> StronglySorted sle names -> Forall2 (parser_at b) names (c_parsers c) -> (forall k p, parser_at b k p -> In k names) ->
  exists user, dict_ok user /\ (forall k f, In (k, f) user <-> parser_at b k (PUser f)) /\
    make_class P (with_user_parsers (decl_of b) user) = Ok c.
Proof.
  intros b c names H HO (HS1 & HS2) ND SO F2 AL.
  set (pairs := combine names (c_parsers c)).
  assert (KP : keys pairs = names).
  { unfold pairs, keys. clear - F2. induction F2; cbn; [reflexivity|]. f_equal. assumption. }
  assert (VP : map snd pairs = c_parsers c).
  { unfold pairs. clear - F2. induction F2; cbn; [reflexivity|]. f_equal. assumption. }
  assert (IP : forall k p, In (k, p) pairs <-> parser_at b k p).
  { intros k p. split.
    - unfold pairs. clear - F2. intro HI. induction F2; cbn in HI; [tauto|]. destruct HI as [E|HI]; [injection E as <- <-; assumption|auto].
    - intro HP. pose proof (AL k p HP) as HI. rewrite <- KP in HI. apply in_map_iff in HI. destruct HI as ([k' p'] & <- & HI). cbn in *.
      assert (parser_at b k' p').
      { revert HI. unfold pairs. clear - F2. intro HI. induction F2; cbn in HI; [tauto|]. destruct HI as [E|HI]; [injection E as <- <-; assumption|auto]. }
      rewrite (parser_at_fun b k' p p'); assumption. }
  assert (IU : forall k f, In (k, f) (user_part pairs) <-> In (k, PUser f) pairs /\ builtin (obj:=obj) (W:=W) k = None).
  { intros k f. unfold user_part. rewrite in_flat_map. split.
    - intros ([k' p] & HI & HF). cbn in HF. destruct (builtin k') eqn:EB; [destruct HF|]. destruct p; try (destruct HF; fail).
      destruct HF as [E|[]]. injection E as <- <-. auto.
    - intros [HI EB]. exists (k, PUser f). split; [assumption|]. cbn. rewrite EB. left; reflexivity. }
  assert (NU : forall k f, parser_at b k (PUser f) -> builtin (obj:=obj) (W:=W) k = None).
  { intros k f HP. destruct (builtin k) as [q|] eqn:EB; [|reflexivity]. pose proof (parser_at_fun b k _ _ (HS1 k q EB) HP). subst q.
    unfold builtin in EB. repeat (destruct (String.eqb _ _) in EB; [discriminate|]). discriminate. }
  exists (user_part pairs). split; [|split].
  - unfold dict_ok. rewrite <- KP in ND. clear - ND. induction pairs as [|[k p] r IH]; cbn; [constructor|].
    cbn in ND. inversion ND as [|? ? N1 N2]; subst. destruct (builtin k); [apply IH; assumption|]. destruct p; cbn; try (apply IH; assumption).
    constructor; [|apply IH; assumption]. intro HI. apply N1. clear - HI. unfold keys in *. apply in_map_iff in HI. destruct HI as ([k' f'] & E & HI).
    cbn in E. subst k'. unfold user_part in HI. apply in_flat_map in HI. destruct HI as ([k2 p2] & HI & HF). cbn in HF.
    destruct (builtin k2); [destruct HF|]. destruct p2; try (destruct HF; fail). destruct HF as [E|[]]. injection E as -> ->.
    apply in_map_iff. exists (k, PUser f'). auto.
  - intros k f. rewrite IU, IP. split; [tauto|]. intro HP. split; [assumption|eapply NU; eassumption].
  - assert (EP : class_parsers (user_part pairs) = c_parsers c).
    { unfold class_parsers. rewrite <- VP. f_equal. symmetry. apply sorted_unique.
      - clear - SO KP. rewrite <- KP in SO. clear KP. induction pairs as [|[k p] r IH]; [constructor|]. cbn in SO. inversion SO as [|? ? S1 S2]; subst.
        constructor; [apply IH; assumption|]. rewrite Forall_forall in *. intros [k' p'] HI. cbn. apply S2. change k' with (fst (k', p')). apply in_map. assumption.
      - apply sort_names_sorted.
      - rewrite KP. assumption.
      - assert (NDP : NoDup pairs) by (rewrite <- KP in ND; eapply NoDup_map_inv; exact ND).
        eapply Permutation_trans; [|symmetry; apply sort_names_perm]. apply NoDup_Permutation; [assumption| |].
        + apply (NoDup_map_inv fst). rewrite map_app. cbn. assert (UN : NoDup (map fst (user_part pairs))).
          { clear - ND KP. rewrite <- KP in ND. clear KP. induction pairs as [|[k p] r IH]; cbn; [constructor|].
            cbn in ND. inversion ND as [|? ? N1 N2]; subst. destruct (builtin k); [apply IH; assumption|]. destruct p; cbn; try (apply IH; assumption).
            constructor; [|apply IH; assumption]. intro HI. apply N1. clear - HI. unfold keys in *. apply in_map_iff in HI. destruct HI as ([k' f'] & E & HI).
            cbn in E. subst k'. unfold user_part in HI. apply in_flat_map in HI. destruct HI as ([k2 p2] & HI & HF). cbn in HF.
            destruct (builtin k2); [destruct HF|]. destruct p2; try (destruct HF; fail). destruct HF as [E|[]]. injection E as -> ->.
            apply in_map_iff. exists (k, PUser f'). auto. }
          rewrite map_map. cbn. change (map (fun x : string * (obj -> M W obj) => fst x) (user_part pairs)) with (map fst (user_part pairs)).
          assert (NB : forall k, In k (map fst (user_part pairs)) -> builtin (obj:=obj) (W:=W) k = None).
          { intros k HI. apply in_map_iff in HI. destruct HI as ([k' f] & <- & HI). apply IU in HI. tauto. }
          repeat constructor; try assumption; cbn; intros HI;
            repeat (destruct HI as [HI|HI]; [discriminate|]); apply NB in HI; discriminate.
        + intros [k p]. rewrite in_app_iff, IP. split.
          * intro HP. destruct (builtin (obj:=obj) (W:=W) k) as [q|] eqn:EB.
            -- left. rewrite (parser_at_fun b k p q HP (HS1 k q EB)). unfold builtin in EB. cbn.
               destruct (String.eqb_spec k "from_instance") as [->|]; [injection EB as <-; auto|].
               destruct (String.eqb_spec k "from_json") as [->|]; [injection EB as <-; auto|].
               destruct (String.eqb_spec k "from_mapping") as [->|]; [injection EB as <-; auto|]. discriminate.
            -- right. destruct (HS2 k p HP EB) as [f ->]. apply in_map_iff. exists (k, f). split; [reflexivity|]. apply IU. rewrite IP. auto.
          * intros [HI|HI].
            -- cbn in HI. destruct HI as [E|[E|[E|[]]]]; injection E as <- <-; apply HS1; reflexivity.
            -- apply in_map_iff in HI. destruct HI as ([k' f] & E & HI). cbn in E. injection E as <- <-. apply IU in HI. rewrite IP in HI. tauto. }
    unfold create in H. oinv H. injection H as <-. cbn [c_parsers] in EP. rewrite <- EP.
    unfold make_class in Ha |- *. cbn [with_user_parsers d_anns d_inherited_anns d_bases d_unary d_prebind d_ty d_style d_frozen d_ordered d_parsers d_post_new decl_of] in *.
    assert (OF : forall l, own_fields P (with_user_parsers (decl_of b) (user_part pairs)) l = own_fields P (decl_of b) l).
    { clear. induction l as [|[k0 a0] r0 IH0]; [reflexivity|]. cbn [own_fields]. rewrite IH0. reflexivity. }
    rewrite OF. clear OF.
    destruct (own_fields P (decl_of b) (own_hints (b_anns b) (b_inherited_anns b))) as [own|]; [|discriminate]. cbn [obind] in *.
    destruct (inherit_fields own [] (flat_map base_fields (b_bases b))) as [par|]; [|discriminate]. cbn [obind] in *.
    destruct (par ++ own) as [|x r]; [discriminate|].
    destruct (apply_prebind P (b_prebind b) (x :: r)) as [fs1|]; [|discriminate]. cbn [obind] in *.
    destruct (bind_fields P (b_ty b) (b_style b) fs1) as [fs2|]; [|discriminate]. cbn [obind] in *.
    injection Ha as <-. reflexivity.
Qed.
End Bodies.
