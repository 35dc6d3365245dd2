(** Dicts_main.v -- proofs of the properties stated in Props_Dicts.v: Which dicts factories and exporters edit (records/select.py, records/record.py) *)

From Verif Require Import Base Dict_proofs Select Spec_Select Select_proofs Select_proofs2 Dicts Spec_Dicts.
Open Scope string_scope.
Open Scope list_scope.

Lemma nth_put_same {V} : forall (h : heap V) a c c', nth_error h a = Some c -> nth_error (put a c' h) a = Some c'.
Proof. induction h as [|x r IH]; intros [|a] c c' H; try discriminate; cbn in *; eauto. Qed.
Lemma nth_put_other {V} : forall (h : heap V) a b c', b <> a -> nth_error (put a c' h) b = nth_error h b.
Proof.
  induction h as [|x r IH]; intros [|a] [|b] c' N; cbn; auto; congruence.
Qed.
Lemma put_put {V} : forall (h : heap V) a c c', put a c' (put a c h) = put a c' h.
Proof. induction h as [|x r IH]; intros [|a] c c'; cbn; auto. now rewrite IH. Qed.
Lemma put_id {V} : forall (h : heap V) a c, nth_error h a = Some c -> put a c h = h.
Proof.
  induction h as [|x r IH]; intros [|a] c H; try discriminate; cbn in *; [congruence|].
  now rewrite IH.
Qed.
Lemma put_last {V} : forall (h : heap V) c c', put (List.length h) c' (h ++ [c]) = h ++ [c'].
Proof. induction h as [|x r IH]; intros; cbn; auto. now rewrite IH. Qed.
Lemma nth_last {V} : forall (h : heap V) c, nth_error (h ++ [c]) (List.length h) = Some c.
Proof. induction h as [|x r IH]; intros; cbn; auto. Qed.
Lemma nth_old {V} : forall (h t : heap V) a c, nth_error h a = Some c -> nth_error (h ++ t) a = Some c.
Proof. induction h as [|x r IH]; intros t [|a] c H; try discriminate; cbn in *; eauto. Qed.
Lemma kept_app {V} : forall (h t : heap V), kept h (h ++ t).
Proof. intros h t a c. apply nth_old. Qed.
Lemma kept_trans {V} : forall (h1 h2 h3 : heap V), kept h1 h2 -> kept h2 h3 -> kept h1 h3.
Proof. intros h1 h2 h3 A B a c H. auto. Qed.
Lemma kept_refl {V} : forall h : heap V, kept h h.
Proof. intros h a c H. auto. Qed.

Lemma each_in_place {V X} (b : X -> dict V -> outcome unit * dict V) a : forall l (h : heap V) c,
  nth_error h a = Some c ->
  each (fun x => in_place a (b x)) l h
  = let '(o, d, _) := for_each b l (items c) in (o, put a (Cell d (missing c)) h).
Proof.
  induction l as [|x r IH]; intros h c H; cbn [each for_each].
  - unfold ret. destruct c as [i m]. cbn. now rewrite put_id.
  - unfold bind, in_place at 1. rewrite H. destruct (b x (items c)) as [[[]|e] d] eqn:E.
    + rewrite (IH _ (Cell d (missing c))) by (eapply nth_put_same; eassumption).
      cbn [items missing]. destruct (for_each b r d) as [[o d'] rest]. now rewrite put_put.
    + reflexivity.
Qed.

Lemma select_on_dict {V} uk ui (s : sel V) a (h : heap V) c :
  stable s -> bool_ok s -> nth_error h a = Some c ->
  select_on uk ui s (MDict a) h
  = let '(o, d, _) := sel_call s (items c) in
    (match o with Ok _ => Ok (MDict a) | Raise e => Raise e end, put a (Cell d (missing c)) h).
Proof.
  intros Ss Bs H. unfold select_on, sel_call. rewrite (sel_truth_stable s Ss Bs).
  destruct (edits_of s) as [|e0 l0] eqn:Ee.
  - cbn. destruct c. cbn. now rewrite put_id.
  - cbn [negb fst]. clear Ee. destruct s as [ad ma r mr n mn bb]. cbn [set_bool s_rem s_mrem s_ren s_mren s_add s_madd].
    destruct Ss as (H1 & H2 & H3 & H4 & H5 & H6). cbn in H1, H2, H3, H4, H5, H6.
    unfold bind at 1, ret at 1.
    unfold bind at 1. rewrite (each_in_place _ _ _ _ _ H).
    destruct (for_each do_remove (elements r) (items c)) as [[[u|e] d1] x1]; [|reflexivity].
    assert (N1 : nth_error (put a (Cell d1 (missing c)) h) a = Some (Cell d1 (missing c)))
      by (eapply nth_put_same; eassumption).
    unfold bind at 1. rewrite (each_in_place _ _ _ _ _ N1). cbn [items missing].
    destruct (for_each do_mremove (elements mr) d1) as [[[u2|e] d2] x2]; rewrite put_put; [|reflexivity].
    assert (N2 : nth_error (put a (Cell d2 (missing c)) h) a = Some (Cell d2 (missing c)))
      by (eapply nth_put_same; eassumption).
    unfold bind at 1. rewrite (each_in_place _ _ _ _ _ N2). cbn [items missing].
    destruct (for_each do_rename (elements n) d2) as [[[u3|e] d3] x3]; rewrite put_put; [|reflexivity].
    assert (N3 : nth_error (put a (Cell d3 (missing c)) h) a = Some (Cell d3 (missing c)))
      by (eapply nth_put_same; eassumption).
    unfold bind at 1. rewrite (each_in_place _ _ _ _ _ N3). cbn [items missing].
    destruct (for_each do_mrename (elements mn) d3) as [[[u4|e] d4] x4]; rewrite put_put; [|reflexivity].
    assert (N4 : nth_error (put a (Cell d4 (missing c)) h) a = Some (Cell d4 (missing c)))
      by (eapply nth_put_same; eassumption).
    unfold bind at 1. rewrite (each_in_place _ _ _ _ _ N4). cbn [items missing].
    destruct (for_each do_add (elements ad) d4) as [[[u5|e] d5] x5]; rewrite put_put; [|reflexivity].
    assert (N5 : nth_error (put a (Cell d5 (missing c)) h) a = Some (Cell d5 (missing c)))
      by (eapply nth_put_same; eassumption).
    unfold bind at 1. rewrite (each_in_place _ _ _ _ _ N5). cbn [items missing].
    destruct (for_each do_madd (elements ma) d5) as [[[u6|e] d6] x6]; rewrite put_put; reflexivity.
Qed.

Lemma bind_step {W A B} (m : M W A) (k : A -> M W B) w a w1 : m w = (Ok a, w1) -> bind m k w = k a w1.
Proof. intros H. unfold bind. now rewrite H. Qed.

Lemma bind_stop {W A B} (m : M W A) (k : A -> M W B) w e w1 : m w = (Raise e, w1) -> bind m k w = (Raise e, w1).
Proof. intros H. unfold bind. now rewrite H. Qed.

Lemma mapping_ind' (P : mapping -> Prop) :
  (forall a, P (MDict a)) -> (forall m, P m -> P (MProxy m)) ->
  (forall ms, Forall P ms -> P (MChain ms)) -> (forall u, P (MUser u)) -> forall m, P m.
Proof.
  intros HD HP HC HU. fix IH 1. intros [a|m|ms|u].
  - apply HD.
  - apply HP, IH.
  - apply HC. induction ms as [|m r IHr]; constructor; [apply IH | exact IHr].
  - apply HU.
Qed.

Lemma ordinary_old {V} (h t : heap V) : forall m, ordinary h m -> ordinary (h ++ t) m.
Proof.
  intros m. induction m as [a|m IH|ms IH|u] using mapping_ind'; cbn; auto.
  - intros (d & H & D). exists d. split; auto. now apply nth_old.
  - induction IH as [|m r Hm Hr IHr]; cbn; auto. intros [A B]. split; [apply Hm, A | exact (IHr B)].
Qed.
Lemma holds_old {V} us (h t : heap V) k : forall m, ordinary h m -> holds us (h ++ t) m k = holds us h m k.
Proof.
  intros m. induction m as [a|m IH|ms IH|u] using mapping_ind'; cbn; auto.
  - intros (d & H & _). now rewrite H, (nth_old _ _ _ _ H).
  - induction IH as [|m r Hm Hr IHr]; cbn; auto. intros [A B]. rewrite (Hm A).
    destruct (holds us h m k); [reflexivity | exact (IHr B)].
Qed.

Lemma ordinary_chain {V} (h : heap V) : forall ms, ordinary h (MChain ms) <-> Forall (ordinary h) ms.
Proof.
  induction ms as [|m r IH]; cbn.
  - split; auto.
  - cbn in IH. rewrite IH. split; [intros []; constructor; auto | intros H; now inversion H].
Qed.
Lemma holds_chain_app {V} us (h : heap V) k : forall ms m,
  holds us h (MChain (ms ++ [m])) k = over (holds us h (MChain ms)) (holds us h m) k.
Proof.
  unfold over. induction ms as [|x r IH]; intros m; cbn.
  - now destruct (holds us h m k).
  - destruct (holds us h x k); [reflexivity | exact (IH m)].
Qed.

Section Reading.
Context {V : Type} (uk : nat -> M (heap V) (list string)) (ui : nat -> string -> M (heap V) V) (us : nat -> dict V).
Hypothesis Hus : user_shows uk ui us.

Lemma m_item_ordinary (h : heap V) k : forall m, ordinary h m ->
  m_item ui m k h = (match holds us h m k with Some v => Ok v | None => Raise (mkexc KeyError k) end, h).
Proof.
  intros m. induction m as [a|m IH|ms IH|u] using mapping_ind'; cbn; auto.
  - intros (d & H & _). rewrite H. cbn. destruct (dget k d); auto.
  - induction IH as [|m r Hm Hr IHr]; cbn; auto. intros [A B]. rewrite (Hm A).
    destruct (holds us h m k); [reflexivity | exact (IHr B)].
  - intros _. destruct (Hus u h) as (_ & _ & H). apply H.
Qed.

Lemma add_keys_ok : forall ks seen, NoDup seen ->
  NoDup (add_keys seen ks) /\ forall k, In k (add_keys seen ks) <-> In k seen \/ In k ks.
Proof.
  unfold add_keys. induction ks as [|x r IH]; intros seen N; cbn.
  - split; auto. intros k; tauto.
  - destruct (smem x seen) eqn:E.
    + destruct (IH seen N) as [A B]. split; auto. intros k. rewrite B.
      apply smem_In in E. split; intros [H|H]; auto. destruct H as [->|H]; auto.
    + assert (N' : NoDup (seen ++ [x])).
      { apply (Permutation_NoDup (l := x :: seen)); [apply Permutation_cons_append|].
        constructor; auto. rewrite <- smem_In. congruence. }
      destruct (IH _ N') as [A B]. split; auto. intros k. rewrite B, in_app_iff. cbn. tauto.
Qed.

Lemma m_keys_ordinary (h : heap V) : forall m, ordinary h m ->
  exists ks, m_keys uk m h = (Ok ks, h) /\ NoDup ks /\ forall k, In k ks <-> holds us h m k <> None.
Proof.
  intros m. induction m as [a|m IH|ms IH|u] using mapping_ind'; cbn; auto.
  - intros (d & H & D). rewrite H. cbn. exists (keys d). split; auto. split; auto.
    intros k. split; intros A; [|destruct (In_dec string_dec k (keys d)); auto; apply dget_None in n; congruence].
    intros B. apply dget_None in B. auto.
  - induction IH as [|m r Hm Hr IHr]; cbn.
    + intros _. exists []. split; [reflexivity|]. split; [constructor|]. intros k. cbn. split; [intros [] | congruence].
    + intros [A B]. destruct (Hm A) as (k1 & E1 & N1 & I1). destruct (IHr B) as (k2 & E2 & N2 & I2).
      rewrite (bind_step _ _ _ _ _ E2), (bind_step _ _ _ _ _ E1). unfold ret. eexists. split; [reflexivity|].
      destruct (add_keys_ok k1 k2 N2) as [N I]. split; auto.
      intros k. rewrite I, I1, I2. destruct (holds us h m k); intuition congruence.
  - intros _. destruct (Hus u h) as (D & K & _). rewrite K. exists (keys (us u)). split; auto. split; auto.
    intros k. split; intros A; [|destruct (In_dec string_dec k (keys (us u))); auto; apply dget_None in n; congruence].
    intros B. apply dget_None in B. auto.
Qed.

Lemma read_pairs (h : heap V) m : ordinary h m -> forall ks, (forall k, In k ks -> holds us h m k <> None) ->
  exists kvs, mapM (fun k => let* v := m_item ui m k in ret (k, v)) ks h = (Ok kvs, h) /\
    keys kvs = ks /\ forall k, In k ks -> dget k kvs = holds us h m k.
Proof.
  intros O. induction ks as [|k r IH]; intros H; cbn.
  - exists []. repeat split; auto. intros k [].
  - destruct IH as (kvs & E & K & G); [intros; apply H; now right|].
    pose proof (m_item_ordinary h k m O) as Ei.
    destruct (holds us h m k) as [v|] eqn:Hk; [|exfalso; apply (H k); auto; now left].
    assert (Ek : (let* v := m_item ui m k in ret (k, v)) h = (Ok (k, v), h)) by now rewrite (bind_step _ _ _ _ _ Ei).
    rewrite (bind_step _ _ _ _ _ Ek), (bind_step _ _ _ _ _ E). unfold ret. eexists. split; [reflexivity|]. cbn. split; [f_equal; exact K|].
    intros k' [<-|I]; [now rewrite String.eqb_refl|].
    destruct (String.eqb_spec k' k) as [->|N]; auto.
Qed.

Lemma read_ordinary (h : heap V) m : ordinary h m ->
  exists d, read uk ui m h = (Ok d, h) /\ dict_ok d /\ forall k, dget k d = holds us h m k.
Proof.
  intros O. assert (G : exists d,
    (let* ks := m_keys uk m in
     let* kvs := mapM (fun k => let* v := m_item ui m k in ret (k, v)) ks in
     ret (dupdate [] kvs)) h = (Ok d, h) /\ dict_ok d /\ forall k, dget k d = holds us h m k).
  { destruct (m_keys_ordinary h m O) as (ks & E & N & I).
    destruct (read_pairs h m O ks) as (kvs & E2 & K & G); [intros k; apply I|].
    rewrite (bind_step _ _ _ _ _ E), (bind_step _ _ _ _ _ E2). unfold ret. eexists. split; [reflexivity|].
    assert (D : dict_ok kvs) by (unfold dict_ok; now rewrite K).
    rewrite dupdate_app_fresh; auto. cbn. split; auto. intros k.
    destruct (In_dec string_dec k ks) as [i|i]; auto.
    rewrite <- K in i. pose proof i as i'. apply dget_None in i. rewrite i. rewrite K in i'.
    rewrite I in i'. destruct (holds us h m k); auto. exfalso. apply i'. congruence. }
  destruct m; auto. destruct O as (d & H & D). exists d. cbn. rewrite H. cbn. auto.
Qed.

(** a Select applied to a mapping that is no dict *)
Lemma select_on_other (s : sel V) (h : heap V) m : stable s -> bool_ok s -> ordinary h m ->
  (forall a, m <> MDict a) ->
  exists m1 h1, (m1, h1) = (m1, h1) /\ kept h h1 /\
  match edits (edits_of s) (holds us h m) with
  | Done f => select_on uk ui s m h = (Ok m1, h1) /\ ordinary h1 m1 /\ forall k, holds us h1 m1 k = f k
  | Missing k => select_on uk ui s m h = (Raise (mkexc KeyError k), h1)
  | Occupied k => select_on uk ui s m h = (Raise (clash k), h1)
  end.
Proof.
  intros Ss Bs O ND. destruct (edits_of s) eqn:Ee.
  - exists m, h. split; auto. split; [apply kept_refl|]. cbn. unfold select_on.
    rewrite (sel_truth_stable s Ss Bs), Ee. cbn. auto.
  - destruct (read_ordinary h m O) as (d & E & D & G).
    assert (EQ : select_on uk ui s m h = select_on uk ui s (MDict (List.length h)) (h ++ [Cell d None])).
    { unfold select_on. rewrite (sel_truth_stable s Ss Bs), Ee. cbn [fst negb].
      destruct m; try (exfalso; eapply ND; reflexivity); unfold bind at 1 2; rewrite E; reflexivity. }
    rewrite EQ. rewrite (select_on_dict uk ui s _ _ _ Ss Bs (nth_last _ _)). cbn [items missing].
    pose proof (sel_call_agrees s d Ss Bs D) as A. rewrite Ee in A.
    destruct (sel_call s d) as [[o d'] s']. destruct A as [A _]. rewrite put_last.
    exists (MDict (List.length h)), (h ++ [Cell d' None]). split; auto. split; [apply kept_app|].
    apply (agrees_ext _ _ _ _ _ G) in A.
    destruct (edits (e :: l) (holds us h m)) as [f|k|k]; cbn in A.
    + destruct A as (-> & D' & G'). split; auto. split.
      * cbn. exists d'. split; auto. apply nth_last.
      * intros k. cbn. now rewrite nth_last.
    + now rewrite A.
    + now rewrite A.
Qed.

(** the same for a new dict *)
Lemma select_on_new (s : sel V) (h : heap V) d : stable s -> bool_ok s -> dict_ok d ->
  exists d', 
  match edits (edits_of s) (fun k => dget k d) with
  | Done f => select_on uk ui s (MDict (List.length h)) (h ++ [Cell d None]) = (Ok (MDict (List.length h)), h ++ [Cell d' None])
              /\ dict_ok d' /\ forall k, dget k d' = f k
  | Missing k => select_on uk ui s (MDict (List.length h)) (h ++ [Cell d None]) = (Raise (mkexc KeyError k), h ++ [Cell d' None])
  | Occupied k => select_on uk ui s (MDict (List.length h)) (h ++ [Cell d None]) = (Raise (clash k), h ++ [Cell d' None])
  end.
Proof.
  intros Ss Bs D. rewrite (select_on_dict uk ui s _ _ _ Ss Bs (nth_last _ _)). cbn [items missing].
  pose proof (sel_call_agrees s d Ss Bs D) as A. destruct (sel_call s d) as [[o d'] s']. destruct A as [A _].
  rewrite put_last. exists d'.
  change (edits (edits_of s) (abs d)) with (edits (edits_of s) (fun k => dget k d)) in A.
  destruct (edits (edits_of s) (fun k => dget k d)) as [f|k|k]; cbn in A.
  - destruct A as (-> & D' & G'). auto.
  - now rewrite A.
  - now rewrite A.
Qed.
End Reading.

Lemma c46_from_mapping_partial_proof : forall {V A} uk ui us (s : sel V) maps kw (mk : dict V -> M (heap V) A) h,
  user_shows uk ui us -> reachable s -> dict_ok kw -> Forall (ordinary h) maps ->
  exists h1, kept h h1 /\
  match edits (asked s) (over (holds us h (MChain maps)) (fun k => dget k kw)) with
  | Done f => exists d, dict_ok d /\ (forall k, dget k d = f k) /\ from_mapping_on uk ui s maps kw mk h = mk d h1
  | v => exists e, refusal v = Some e /\ from_mapping_on uk ui s maps kw mk h = (Raise e, h1)
  end.
Proof.
  intros V A uk ui us s maps kw mk h Hus Hr Hk Hm. apply reachable_ok in Hr as [Ss Bs].
  set (h0 := h ++ [Cell kw None]). set (m := MChain (maps ++ [MDict (List.length h)])).
  assert (O : ordinary h0 m).
  { apply ordinary_chain. apply Forall_app. split.
    - eapply Forall_impl; [|exact Hm]. intros x. apply ordinary_old.
    - constructor; auto. exists kw. split; auto. apply nth_last. }
  destruct (select_on_other uk ui us Hus s h0 m Ss Bs O) as (m1 & h1 & _ & K & S); [discriminate|].
  assert (H : forall k, holds us h0 m k = over (holds us h (MChain maps)) (fun k => dget k kw) k).
  { intros k. unfold m. rewrite holds_chain_app. unfold over. unfold h0 at 1. rewrite holds_old by (now apply ordinary_chain).
    destruct (holds us h (MChain maps) k); auto. cbn. unfold h0. now rewrite nth_last. }
  exists h1. split; [eapply kept_trans; [|exact K]; apply kept_app|].
  pose proof (edits_ext (edits_of s) _ _ H) as X. change (asked s) with (edits_of s).
  assert (EQ : from_mapping_on uk ui s maps kw mk h
               = bind (select_on uk ui s m) (fun m => bind (read uk ui m) mk) h0) by reflexivity.
  rewrite EQ. clear EQ.
  destruct (edits (edits_of s) (holds us h0 m)) as [f|k|k] eqn:E1;
  destruct (edits (edits_of s) (over (holds us h (MChain maps)) (fun k => dget k kw))) as [g|k'|k'] eqn:E2; try tauto.
  - destruct S as (S & O1 & G). destruct (read_ordinary uk ui us Hus h1 m1 O1) as (d & E & D & Gd).
    exists d. split; auto. split; [intros k; rewrite Gd, G; apply X|].
    now rewrite (bind_step _ _ _ _ _ S), (bind_step _ _ _ _ _ E).
  - subst k'. rewrite (bind_stop _ _ _ _ _ S). eexists. split; reflexivity.
  - subst k'. rewrite (bind_stop _ _ _ _ _ S). eexists. split; reflexivity.
Qed.

Lemma c46_from_instance_partial_proof : forall {V A} uk ui us (s : sel V) extract maps kw (mk : dict V -> M (heap V) A) h d0 h0,
  user_shows uk ui us -> reachable s -> dict_ok kw -> (List.length maps <= 1)%nat -> Forall (ordinary h) maps ->
  extract h = (Ok d0, h0) -> dict_ok d0 -> kept h h0 ->
  exists h1, kept h h1 /\
  match edits (asked s) (over (fun k => dget k kw) (over (holds us h (MChain maps)) (fun k => dget k d0))) with
  | Done f => exists d, dict_ok d /\ (forall k, dget k d = f k) /\ from_instance_on uk ui s extract maps kw mk h = mk d h1
  | v => exists e, refusal v = Some e /\ from_instance_on uk ui s extract maps kw mk h = (Raise e, h1)
  end.
Proof.
  intros V A uk ui us s extract maps kw mk h d0 h0 Hus Hr Hk Hl Hm He Hd Kh. apply reachable_ok in Hr as [Ss Bs].
  assert (P : exists d1, from_instance_func uk ui extract maps kw h = (Ok (MDict (List.length h0)), h0 ++ [Cell d1 None])
    /\ dict_ok d1 /\ forall k, dget k d1 = over (fun k => dget k kw) (over (holds us h (MChain maps)) (fun k => dget k d0)) k).
  { unfold from_instance_func. unfold bind at 1. rewrite He. unfold bind at 1, alloc.
    destruct maps as [|m [|m2 r]]; [| |cbn in Hl; lia].
    - unfold bind, in_place. rewrite nth_last. cbn [items missing]. rewrite put_last. unfold ret.
      eexists. split; [reflexivity|]. split; [now apply dict_ok_dupdate|].
      intros k. rewrite dget_dupdate by auto. unfold over. cbn. now destruct (dget k kw).
    - inversion Hm as [|? ? O _]; subst.
      assert (O1 : ordinary (h0 ++ [Cell d0 None]) m).
      { assert (Kt : kept h (h0 ++ [Cell d0 None])) by (eapply kept_trans; [exact Kh | apply kept_app]).
        clear - O Kt. revert O. induction m as [a|m IH|ms IH|u] using mapping_ind'; cbn; auto.
        - intros (d & H & D). exists d. auto.
        - induction IH as [|m r Hm Hr IHr]; cbn; auto. intros [A B]. split; [apply Hm, A | exact (IHr B)]. }
      destruct (read_ordinary uk ui us Hus _ m O1) as (e & E & D & G).
      unfold bind at 1. rewrite E. unfold bind, in_place. rewrite nth_last. cbn [items missing]. rewrite put_last. unfold ret.
      eexists. split; [reflexivity|]. split; [repeat apply dict_ok_dupdate; auto|].
      intros k. rewrite !dget_dupdate by auto. unfold over. destruct (dget k kw); auto. rewrite G. cbn.
      assert (HH : holds us (h0 ++ [Cell d0 None]) m k = holds us h m k).
      { assert (Kt : kept h (h0 ++ [Cell d0 None])) by (eapply kept_trans; [exact Kh | apply kept_app]).
        clear - O Kt. revert O. induction m as [a|m IH|ms IH|u] using mapping_ind'; cbn; auto.
        - intros (d & H & D). now rewrite H, (Kt _ _ H).
        - induction IH as [|m r Hm Hr IHr]; cbn; auto. intros [A B]. rewrite (Hm A). destruct (holds us h m k); [reflexivity | exact (IHr B)]. }
      rewrite HH. now destruct (holds us h m k). }
  destruct P as (d1 & Pf & D1 & G1).
  destruct (select_on_new uk ui s h0 d1 Ss Bs D1) as (d' & S).
  exists (h0 ++ [Cell d' None]). split; [eapply kept_trans; [exact Kh | apply kept_app]|].
  pose proof (edits_ext (edits_of s) _ _ G1) as X. change (asked s) with (edits_of s).
  unfold from_instance_on, run. rewrite (bind_step _ _ _ _ _ Pf).
  destruct (edits (edits_of s) (fun k => dget k d1)) as [f|k|k] eqn:E1;
  destruct (edits (edits_of s) (over (fun k => dget k kw) (over (holds us h (MChain maps)) (fun k => dget k d0)))) as [g|k'|k'] eqn:E2; try tauto.
  - destruct S as (S & O1 & G). rewrite (bind_step _ _ _ _ _ S). exists d'. split; auto. split; [intros k; rewrite G; apply X|].
    unfold bind, read. now rewrite nth_last.
  - subst k'. rewrite (bind_stop _ _ _ _ _ S). eexists. split; reflexivity.
  - subst k'. rewrite (bind_stop _ _ _ _ _ S). eexists. split; reflexivity.
Qed.

Lemma c46_two_mappings_proof : forall {V A} uk ui (s : sel V) extract maps kw (mk : dict V -> M (heap V) A) h d0 h0,
  (2 <= List.length maps)%nat -> extract h = (Ok d0, h0) ->
  exists e h1, from_instance_on uk ui s extract maps kw mk h = (Raise e, h1) /\ exc_cls e = TypeError /\ kept h0 h1.
Proof.
  intros V A uk ui s extract maps kw mk h d0 h0 Hl He.
  destruct maps as [|m1 [|m2 r]]; [cbn in Hl; lia | cbn in Hl; lia |].
  do 2 eexists. split; [|split; [|apply (kept_app h0 [Cell d0 None])]].
  - unfold from_instance_on, run. apply bind_stop. unfold from_instance_func.
    rewrite (bind_step _ _ _ _ _ He). reflexivity.
  - reflexivity.
Qed.

Lemma c46_mapping_error_proof : forall {V A} uk ui (s : sel V) u ks kw (mk : dict V -> M (heap V) A) h e,
  (forall h, uk u h = (Ok ks, h)) -> (forall k h, ui u k h = (Raise e, h)) -> is_KeyError e = false ->
  (ks <> [] \/ kw <> []) ->
  exists h1, from_mapping_on uk ui s [MUser u] kw mk h = (Raise e, h1) /\ kept h h1.
Proof.
  intros V A uk ui s u ks kw mk h e HK HI NE NN.
  set (h1 := h ++ [Cell kw None]).
  assert (R : read uk ui (MChain [MUser u; MDict (List.length h)]) h1 = (Raise e, h1)).
  { cbn [read]. assert (K : exists l, m_keys uk (MChain [MUser u; MDict (List.length h)]) h1 = (Ok l, h1) /\ l <> []).
    { exists (add_keys (add_keys [] (keys kw)) ks). split.
      - cbn [m_keys]. unfold bind, ret. unfold h1 at 1. rewrite nth_last. cbn [items]. rewrite HK. reflexivity.
      - assert (N : NoDup (add_keys [] (keys kw))) by (apply add_keys_ok; constructor).
        destruct (add_keys_ok ks _ N) as [_ B]. destruct (add_keys_ok (keys kw) [] (NoDup_nil _)) as [_ C].
        intros E. destruct NN as [NN|NN].
        + destruct ks as [|k r]; [congruence|]. specialize (B k). rewrite E in B. cbn in B. tauto.
        + destruct kw as [|[k v] r]; [congruence|]. specialize (B k). rewrite E, C in B. cbn in B. tauto. }
    destruct K as (l & K & NL). rewrite (bind_step _ _ _ _ _ K). destruct l as [|k r]; [congruence|].
    apply bind_stop. cbn [mapM]. apply bind_stop. apply bind_stop. cbn [m_item]. rewrite HI, NE. reflexivity. }
  exists h1. split; [|apply kept_app]. unfold from_mapping_on, run.
  assert (F : from_mapping_func [MUser u] kw h = (Ok (MChain [MUser u; MDict (List.length h)]), h1)) by reflexivity.
  rewrite (bind_step _ _ _ _ _ F). unfold select_on. destruct (negb (fst (sel_truth s))).
  - unfold bind at 1, ret at 1. apply bind_stop. exact R.
  - apply bind_stop. apply bind_stop. apply bind_stop. exact R.
Qed.

Lemma c46_to_dict_proof : forall {V} uk ui (s : sel V) extract h d0 h0,
  reachable s -> extract h = (Ok d0, h0) -> dict_ok d0 -> kept h h0 ->
  exists h1, kept h0 h1 /\
  match edits (asked s) (fun k => dget k d0) with
  | Done f => exists a d, to_dict_on uk ui s extract h = (Ok (MDict a), h1) /\ nth_error h0 a = None /\
                nth_error h1 a = Some (Cell d None) /\ dict_ok d /\ forall k, dget k d = f k
  | v => exists e, refusal v = Some e /\ to_dict_on uk ui s extract h = (Raise e, h1)
  end.
Proof.
  intros V uk ui s extract h d0 h0 Hr He Hd Kh. apply reachable_ok in Hr as [Ss Bs].
  destruct (select_on_new uk ui s h0 d0 Ss Bs Hd) as (d' & S). change (asked s) with (edits_of s).
  exists (h0 ++ [Cell d' None]). split; [apply kept_app|].
  unfold to_dict_on, export_on. rewrite (bind_step _ _ _ _ _ He).
  assert (EQ : alloc d0 h0 = (Ok (MDict (List.length h0)), h0 ++ [Cell d0 None])) by reflexivity.
  rewrite (bind_step _ _ _ _ _ EQ).
  destruct (edits (edits_of s) (fun k => dget k d0)) as [f|k|k].
  - destruct S as (S & D & G). rewrite (bind_step _ _ _ _ _ S). exists (List.length h0), d'. split; auto. split; [now apply nth_error_None|].
    split; [apply nth_last|]. auto.
  - rewrite (bind_stop _ _ _ _ _ S). eexists. split; reflexivity.
  - rewrite (bind_stop _ _ _ _ _ S). eexists. split; reflexivity.
Qed.

Lemma c46_custom_refuted_proof : forall {V A} uk ui (s : sel V) (func : M (heap V) mapping) (mk : dict V -> M (heap V) A) h a h0 c,
  reachable s -> func h = (Ok (MDict a), h0) -> nth_error h0 a = Some c -> dict_ok (items c) ->
  exists h1 d, kept_but a h0 h1 /\ nth_error h1 a = Some (Cell d (missing c)) /\
  match edits (asked s) (fun k => dget k (items c)) with
  | Done f => dict_ok d /\ (forall k, dget k d = f k) /\ run uk ui func s mk h = mk d h1
  | v => exists e, refusal v = Some e /\ run uk ui func s mk h = (Raise e, h1)
  end.
Proof.
  intros V A uk ui s func mk h a h0 c Hr Hf Hn Hd. apply reachable_ok in Hr as [Ss Bs].
  change (asked s) with (edits_of s).
  pose proof (sel_call_agrees s (items c) Ss Bs Hd) as X.
  pose proof (select_on_dict uk ui s a h0 c Ss Bs Hn) as S.
  destruct (sel_call s (items c)) as [[o d'] s']. destruct X as [X _].
  exists (put a (Cell d' (missing c)) h0), d'.
  assert (N : nth_error (put a (Cell d' (missing c)) h0) a = Some (Cell d' (missing c))) by (eapply nth_put_same; eassumption).
  split; [intros b c' Nb Hb; now rewrite nth_put_other|]. split; auto.
  unfold run. rewrite (bind_step _ _ _ _ _ Hf).
  change (edits (edits_of s) (abs (items c))) with (edits (edits_of s) (fun k => dget k (items c))) in X.
  destruct (edits (edits_of s) (fun k => dget k (items c))) as [f|k|k]; cbn in X.
  - destruct X as (-> & D & G). split; auto. split; auto. rewrite (bind_step _ _ _ _ _ S). unfold bind, read. now rewrite N.
  - subst o. rewrite (bind_stop _ _ _ _ _ S). eexists. split; reflexivity.
  - subst o. rewrite (bind_stop _ _ _ _ _ S). eexists. split; reflexivity.
Qed.

Lemma read_default {V} uk ui (h : heap V) a d v0 b kw :
  nth_error h a = Some (Cell d (Some v0)) -> dict_ok d -> nth_error h b = Some (Cell kw None) -> dict_ok kw -> a <> b ->
  exists d1 d2, read uk ui (MChain [MDict a; MDict b]) h = (Ok d1, put a (Cell d2 (Some v0)) h) /\ dict_ok d1 /\ dict_ok d2 /\
  (forall k, dget k d1 = over (fun k => dget k d) (fun k => match dget k kw with Some _ => Some v0 | None => None end) k) /\
  forall k, dget k d2 = dget k d1.
Proof.
  intros Ha Hd Hb Hk Nab.
  assert (IT : forall k di, dict_ok di ->
    exists v di', m_item ui (MChain [MDict a; MDict b]) k (put a (Cell di (Some v0)) h) = (Ok v, put a (Cell di' (Some v0)) h) /\ dict_ok di' /\
      v = match dget k di with Some v => v | None => v0 end /\
      forall k', dget k' di' = if String.eqb k' k then Some v else dget k' di).
  { intros k di Hi. cbn. rewrite (nth_put_same _ _ _ _ Ha). cbn. destruct (dget k di) as [v|] eqn:E.
    - exists v, di. split; auto. split; auto. split; auto. intros k'. destruct (String.eqb_spec k' k) as [->|]; auto.
    - exists v0, (dset k v0 di). rewrite put_put. split; auto. split; [now apply dict_ok_dset|]. split; auto.
      intros k'. rewrite dget_dset. reflexivity. }
  assert (MM : forall ks di, dict_ok di -> NoDup ks -> exists kvs di',
    mapM (fun k => let* v := m_item ui (MChain [MDict a; MDict b]) k in ret (k, v)) ks (put a (Cell di (Some v0)) h)
      = (Ok kvs, put a (Cell di' (Some v0)) h) /\ dict_ok di' /\ keys kvs = ks /\
    (forall k, dget k kvs = if smem k ks then Some (match dget k di with Some v => v | None => v0 end) else None) /\
    forall k, dget k di' = if smem k ks then Some (match dget k di with Some v => v | None => v0 end) else dget k di).
  { induction ks as [|k r IH]; intros di Hi Nd; cbn [mapM].
    - exists [], di. repeat split; auto.
    - inversion Nd as [|? ? Nk Nr]; subst.
      destruct (IT k di Hi) as (v & di1 & E & D1 & -> & G1).
      destruct (IH di1 D1 Nr) as (kvs & di2 & E2 & D2 & K2 & Gk & G2).
      set (v := match dget k di with Some v => v | None => v0 end) in *.
      assert (Ek : (let* v := m_item ui (MChain [MDict a; MDict b]) k in ret (k, v)) (put a (Cell di (Some v0)) h)
                   = (Ok (k, v), put a (Cell di1 (Some v0)) h)) by now rewrite (bind_step _ _ _ _ _ E).
      rewrite (bind_step _ _ _ _ _ Ek), (bind_step _ _ _ _ _ E2). unfold ret. eexists _, di2. split; [reflexivity|]. split; auto. cbn. split; [f_equal; exact K2|].
      assert (Sk : smem k r = false).
      { destruct (smem k r) eqn:S; auto. apply smem_In in S. contradiction. }
      split; intros k'.
      + destruct (String.eqb_spec k' k) as [->|N]; auto. rewrite Gk, G1.
        destruct (String.eqb_spec k' k); [contradiction|]. reflexivity.
      + rewrite G2, G1. destruct (String.eqb_spec k' k) as [->|N]; [now rewrite Sk|]. reflexivity. }
  set (ks := add_keys (add_keys [] (keys kw)) (keys d)).
  destruct (add_keys_ok (keys kw) [] (NoDup_nil _)) as [N0 I0].
  destruct (add_keys_ok (keys d) _ N0) as [N1 I1]. fold ks in N1, I1.
  destruct (MM ks d Hd N1) as (kvs & d2 & E & D2 & K & Gk & G2).
  rewrite (put_id _ _ _ Ha) in E.
  assert (Eks : m_keys uk (MChain [MDict a; MDict b]) h = (Ok ks, h)).
  { cbn. unfold bind, ret. now rewrite Hb, Ha. }
  unfold read. rewrite (bind_step _ _ _ _ _ Eks), (bind_step _ _ _ _ _ E). unfold ret.
  assert (Dk : dict_ok kvs) by (unfold dict_ok; now rewrite K).
  exists (dupdate [] kvs), d2. split; auto. rewrite dupdate_app_fresh; auto. cbn. split; auto. split; auto.
  assert (Sm : forall k, smem k ks = match dget k d with Some _ => true | None => match dget k kw with Some _ => true | None => false end end).
  { intros k. destruct (smem k ks) eqn:S.
    - apply smem_In, I1 in S. destruct (dget k d) eqn:Ed; auto. destruct (dget k kw) eqn:Ek; auto.
      apply dget_None in Ed. apply dget_None in Ek. rewrite I0 in S. cbn in S. tauto.
    - assert (~ In k ks) by (rewrite <- smem_In; congruence). rewrite I1, I0 in H. cbn in H.
      destruct (dget k d) eqn:Ed; [exfalso; apply H; right; destruct (In_dec string_dec k (keys d)) as [i|i]; auto; apply dget_None in i; congruence|].
      destruct (dget k kw) eqn:Ek; auto.
      exfalso; apply H; left; right; destruct (In_dec string_dec k (keys kw)) as [i|i]; auto; apply dget_None in i; congruence. }
  split; intros k; rewrite ?G2, ?Gk, Sm; unfold over; destruct (dget k d); auto; destruct (dget k kw); auto.
Qed.

Lemma c140_defaultdict_refuted_proof : forall {V A} uk ui (s : sel V) (mk : dict V -> M (heap V) A) h a d v0 kw,
  reachable s -> nth_error h a = Some (Cell d (Some v0)) -> dict_ok d -> dict_ok kw ->
  let default k := match dget k kw with Some _ => Some v0 | None => None end in
  exists h1 d2, kept_but a h h1 /\ nth_error h1 a = Some (Cell d2 (Some v0)) /\
  (forall k, dget k d2 = over (fun k => dget k d) default k) /\
  match edits (asked s) (over (fun k => dget k d) default) with
  | Done f => exists d1, dict_ok d1 /\ (forall k, dget k d1 = f k) /\ from_mapping_on uk ui s [MDict a] kw mk h = mk d1 h1
  | v => exists e, refusal v = Some e /\ from_mapping_on uk ui s [MDict a] kw mk h = (Raise e, h1)
  end.
Proof.
  intros V A uk ui s mk h a d v0 kw Hr Ha Hd Hk default. apply reachable_ok in Hr as [Ss Bs].
  change (asked s) with (edits_of s).
  set (h0 := h ++ [Cell kw None]).
  assert (La : (a < List.length h)%nat) by (apply nth_error_Some; congruence).
  destruct (read_default uk ui h0 a d v0 (List.length h) kw) as (d1 & d2 & E & D1 & D2 & G1 & G2); auto;
    [now apply nth_old | apply nth_last | lia |].
  set (h2 := put a (Cell d2 (Some v0)) h0) in *.
  assert (K0 : kept_but a h h2).
  { intros b c Nb Hb. unfold h2. rewrite nth_put_other by auto. now apply nth_old. }
  assert (N2 : nth_error h2 a = Some (Cell d2 (Some v0))) by (eapply nth_put_same, nth_old; eassumption).
  assert (G2' : forall k, dget k d2 = over (fun k => dget k d) default k) by (intros k; now rewrite G2, G1).
  assert (EQ0 : from_mapping_on uk ui s [MDict a] kw mk h
               = bind (select_on uk ui s (MChain [MDict a; MDict (List.length h)])) (fun m => bind (read uk ui m) mk) h0) by reflexivity.
  rewrite EQ0. clear EQ0.
  destruct (edits_of s) eqn:Ee.
  - exists h2, d2. split; auto. split; auto. split; auto. cbn [edits].
    exists d1. split; auto. split; [exact G1|].
    assert (S : select_on uk ui s (MChain [MDict a; MDict (List.length h)]) h0 = (Ok (MChain [MDict a; MDict (List.length h)]), h0)).
    { unfold select_on. now rewrite (sel_truth_stable s Ss Bs), Ee. }
    now rewrite (bind_step _ _ _ _ _ S), (bind_step _ _ _ _ _ E).
  - destruct (select_on_new uk ui s h2 d1 Ss Bs D1) as (d' & S). rewrite Ee in S.
    exists (h2 ++ [Cell d' None]), d2.
    split; [intros b c Nb Hb; apply nth_old; auto|]. split; [now apply nth_old|]. split; auto.
    assert (EQ : select_on uk ui s (MChain [MDict a; MDict (List.length h)]) h0
                 = select_on uk ui s (MDict (List.length h2)) (h2 ++ [Cell d1 None])).
    { unfold select_on. rewrite (sel_truth_stable s Ss Bs), Ee. cbn [fst negb].
      unfold bind at 1 2. rewrite E. reflexivity. }
    rewrite <- EQ in S. pose proof (edits_ext (e :: l) _ _ G1) as X. fold default in X.
    destruct (edits (e :: l) (fun k => dget k d1)) as [f|k|k];
    destruct (edits (e :: l) (over (fun k => dget k d) default)) as [g|k'|k']; try tauto.
    + destruct S as (S & D' & G). rewrite (bind_step _ _ _ _ _ S). exists d'. split; auto. split; [intros k; rewrite G; apply X|].
      unfold bind, read. now rewrite nth_last.
    + subst k'. rewrite (bind_stop _ _ _ _ _ S). eexists. split; reflexivity.
    + subst k'. rewrite (bind_stop _ _ _ _ _ S). eexists. split; reflexivity.
Qed.
