(** Subkeys_main.v -- proofs of the properties stated in Props_Subkeys.v: sub_keys of any kind (records/fillers/filler.py:87-96, records/field.py:128-130) *)

From Verif Require Import Base Py Filler Spec_Filler Spec_Added Subkeys Spec_Subkeys Classes Demo.
From Verif Require Import Filler_proofs Filler_sound Filler_shape Filler_eqs.
From Verif Require Added_main Dict_proofs Classes_proofs.
Open Scope string_scope.
Open Scope list_scope.

Lemma tuple_index_front : forall n i, i < n -> tuple_index n (Z.of_nat i) = Ok i.
Proof.
  intros n i L. unfold tuple_index. cbv zeta. rewrite (proj2 (Z.leb_le _ _)) by lia. rewrite (proj2 (Z.ltb_lt _ _)) by lia.
  rewrite Nat2Z.id. reflexivity.
Qed.

Lemma tuple_index_back : forall n i, i < n -> tuple_index n (Z.of_nat i - Z.of_nat n) = Ok i.
Proof.
  intros n i L. unfold tuple_index. cbv zeta. rewrite (proj2 (Z.leb_gt _ _)) by lia. rewrite (proj2 (Z.leb_le _ _)) by lia.
  f_equal. lia.
Qed.

Lemma tuple_index_out : forall n z, (forall i, i < n -> z <> Z.of_nat i /\ z <> (Z.of_nat i - Z.of_nat n)%Z) -> tuple_index n z = Raise index_error.
Proof.
  intros n z H. unfold tuple_index. cbv zeta. destruct (Z.leb_spec 0 z).
  - destruct (Z.ltb_spec z (Z.of_nat n)); [|reflexivity]. destruct (H (Z.to_nat z)); lia.
  - destruct (Z.leb_spec (- Z.of_nat n) z); [|reflexivity]. destruct (H (Z.to_nat (z + Z.of_nat n))); lia.
Qed.

Section Named.
Context {obj ty W : Type} (P : Py obj ty W).
Notation token := (@token obj ty W).
Notation hint := (@hint obj ty W).
Notation filler := (@filler obj ty W).

(** what a filler tells about keys: how many parts it has, and whether they can be counted *)
Definition members (f : filler) : option nat :=
  match f with
  | FUnion _ _ subs _ | FTupleN _ _ subs => Some (List.length subs)
  | FTupleV _ _ _ => Some 1
  | _ => None
  end.
Definition fixed (f : filler) : nat :=
  match f with FIter _ _ _ _ => 1 | FMap _ _ _ _ _ => 2 | _ => 0 end.

Lemma mapO_length : forall A B (g : A -> outcome B) l l', mapO g l = Ok l' -> List.length l' = List.length l.
Proof.
  induction l as [|a l IH]; intros l' H; cbn in H; [injection H as <-; reflexivity|].
  apply obind_Ok in H as (b & _ & H). apply obind_Ok in H as (r & E & H). injection H as <-. cbn. rewrite (IH _ E). reflexivity.
Qed.

Lemma shape : forall h own f, gaf P own h = Ok f ->
  if has_members h then members f = Some (List.length (parts h)) else members f = None /\ fixed f = List.length (parts h).
Proof.
  induction h as [t0| | | |h IH|hs IH|lid vals|base|hs IH|h IH|rk t0 h IH|rk t0 hk hv IHk IHv|t0 hs IH|t0| |h toks IH]
    using hint_ind'; intros own f G; cbn in G.
  all: try (injection G as <-; split; reflexivity).
  - destruct h; try (apply (IH own f G)). destruct own; [|discriminate]. injection G as <-. split; reflexivity.
  - apply obind_Ok in G as (subs & G & H). injection H as <-. cbn. rewrite (mapO_length _ _ _ _ _ G). reflexivity.
  - apply obind_Ok in G as (subs & G & H). injection H as <-. cbn. rewrite (mapO_length _ _ _ _ _ G). reflexivity.
  - apply obind_Ok in G as (s & G & H). injection H as <-. reflexivity.
  - apply obind_Ok in G as (s & G & H). injection H as <-. split; reflexivity.
  - apply obind_Ok in G as (s & G & H). apply obind_Ok in H as (s' & G' & H). injection H as <-. split; reflexivity.
  - apply obind_Ok in G as (subs & G & H). injection H as <-. split; reflexivity.
  - destruct own; [|discriminate]. injection G as <-. split; reflexivity.
  - apply (IH _ _ G).
Qed.

Lemma named_by_shape : forall f g k, members f = members g -> fixed f = fixed g -> part_named f k = part_named g k.
Proof.
  intros f g k M F. destruct f, g; cbn in M, F; try discriminate; try reflexivity;
    try (injection M as M); cbn; try rewrite M; try rewrite <- M; reflexivity.
Qed.

Lemma key_eq_equals : forall k z b, key_eq k z = Ok b <-> equals k z b.
Proof.
  intros [|y|e] z b; cbn; [split; congruence| |tauto]. destruct (Z.eqb_spec y z) as [->|N]; split; intro H.
  - injection H as <-. tauto.
  - f_equal. symmetry. apply H. reflexivity.
  - injection H as <-. split; [discriminate|contradiction].
  - f_equal. destruct b; [exfalso; apply N, H; reflexivity|reflexivity].
Qed.

Lemma named_part : forall h own f k p, gaf P own h = Ok f -> stands_for h k p -> part_named f k = Ok p.
Proof.
  intros h own f k p G N. pose proof (shape _ _ _ G) as S. destruct p as [i|].
  - destruct N as [L N]. destruct (has_members h).
    + destruct N as (z & -> & Z). assert (T : tuple_index (List.length (parts h)) z = Ok i)
        by (destruct Z as [->| ->]; [apply tuple_index_front|apply tuple_index_back]; exact L).
      destruct f; cbn in S; try discriminate; injection S as S; cbn [part_named]; rewrite <- S in T; rewrite T; reflexivity.
    + destruct S as [M F]. destruct N as [E D]. apply key_eq_equals in E. rewrite <- F in L. destruct f; cbn in M, L; try discriminate; try lia; cbn [part_named].
      * assert (i = 0) by lia. subst i. cbn in E. rewrite E. reflexivity.
      * destruct i as [|[|i]]; [| |lia].
        -- cbn in E. rewrite E. reflexivity.
        -- pose proof (D 0 ltac:(lia)) as D0. apply key_eq_equals in D0. cbn in D0, E. rewrite D0. cbn. rewrite E. reflexivity.
  - cbn in N. subst k. destruct f; reflexivity.
Qed.

Lemma named_none : forall h own f k, gaf P own h = Ok f -> k <> SkNone -> comparable k -> (forall i, ~ names h k i) ->
  exists e, part_named f k = Raise e /\ is_lookup_error e = true.
Proof.
  intros h own f k G K C N. pose proof (shape _ _ _ G) as S.
  assert (BP : exists e, base_part k = Raise e /\ is_lookup_error e = true)
    by (exists no_sub; split; [destruct k; [contradiction|reflexivity|reflexivity]|reflexivity]).
  unfold names in N. destruct (has_members h).
  - assert (T : forall z, k = SkInt z -> tuple_index (List.length (parts h)) z = Raise index_error).
    { intros z ->. apply tuple_index_out. intros i L. split; intros Z; apply (N i); split; eauto. }
    destruct f; cbn in S; try discriminate; injection S as S; cbn [part_named]; (destruct k as [|z|q]; [contradiction| |exact BP]);
      rewrite S; rewrite (T z eq_refl); eexists; split; reflexivity.
  - destruct S as [M F]. destruct f; cbn in M, F; try discriminate; try exact BP; cbn [part_named]; rewrite <- F in N.
    + destruct (C 0%Z) as [b E]. rewrite (proj2 (key_eq_equals _ _ _) E). cbn [obind]. destruct b; [|exact BP]. exfalso. apply (N 0). repeat split; [lia|exact E|lia].
    + destruct (C 0%Z) as [b E]. rewrite (proj2 (key_eq_equals _ _ _) E). cbn [obind]. destruct b.
      { exfalso. apply (N 0). repeat split; [lia|exact E|lia]. }
      destruct (C 1%Z) as [c E1]. rewrite (proj2 (key_eq_equals _ _ _) E1). cbn [obind]. destruct c; [|exact BP].
      exfalso. apply (N 1). repeat split; [lia|exact E1|]. intros j L. assert (j = 0) by lia. subst j. exact E.
Qed.

Lemma update_nth_length : forall i g (l l' : list filler), update_nth i g l = Ok l' -> List.length l' = List.length l.
Proof.
  induction i as [|i IH]; intros g [|x l] l' H; cbn in H; try discriminate; apply obind_Ok in H as (y & E & H); injection H as <-; cbn; [reflexivity|].
  rewrite (IH _ _ _ E). reflexivity.
Qed.

Lemma apply_shape : forall f t f', apply P f t = Ok f' -> members f' = members f /\ fixed f' = fixed f.
Proof.
  intros f t f' H. destruct f; cbn in H; try discriminate.
  all: try (apply obind_Ok in H as (a' & E & H); injection H as <-; split; reflexivity).
  all: try (destruct bound; [discriminate|]; injection H as <-; split; reflexivity).
Qed.

Lemma apply_at_shape : forall p f t f', apply_at P p t f = Ok f' -> members f' = members f /\ fixed f' = fixed f.
Proof.
  intros [i|] f t f' H; [|apply (apply_shape _ _ _ H)]. destruct f; cbn in H; try discriminate.
  - apply obind_Ok in H as (l & E & H). injection H as <-. cbn. rewrite (update_nth_length _ _ _ _ E). split; reflexivity.
  - apply obind_Ok in H as (l & E & H). injection H as <-. cbn. rewrite (update_nth_length _ _ _ _ E). split; reflexivity.
  - destruct i; [|discriminate]. apply obind_Ok in H as (l & E & H). injection H as <-. split; reflexivity.
  - destruct i; [|discriminate]. apply obind_Ok in H as (l & E & H). injection H as <-. split; reflexivity.
  - destruct i as [|[|i]]; try discriminate; apply obind_Ok in H as (l & E & H); injection H as <-; split; reflexivity.
Qed.

Lemma keyed_as_numbered : forall h own f0, gaf P own h = Ok f0 -> forall ops nops,
  Forall2 (fun kt pt => stands_for h (fst kt) (fst pt) /\ snd kt = snd pt) ops nops ->
  forall f, members f = members f0 -> fixed f = fixed f0 -> apply_keyed P f ops = apply_ops P f nops.
Proof.
  intros h own f0 G ops nops H. induction H as [|[k t] [p t'] ops nops [N E] H IH]; intros f M F; [reflexivity|].
  cbn in N, E. subst t'. cbn [apply_keyed apply_ops]. unfold apply_to_filler. rewrite (named_by_shape f f0 k M F), (named_part _ _ _ _ _ G N). cbn [obind].
  destruct (apply_at P p t f) as [f1|e] eqn:A; [|reflexivity]. cbn [obind]. destruct (apply_at_shape _ _ _ _ A). apply IH; congruence.
Qed.

End Named.

Lemma c159_part_proof : forall {obj ty W} (P : Py obj ty W) h f k i,
  get_filler P h = Ok f -> names h k i ->
  exists p s, nth_error (parts h) i = Some p /\ get_filler P p = Ok s /\ sub_filler_of f k = Ok s.
Proof.
  intros obj ty W P h f k i G N. unfold get_filler, sub_filler_of in *. rewrite (named_part P h [] f k (Some i) G N). cbn [obind].
  pose proof (Added_main.c96_sub_filler_proof P h [] f i G) as S. destruct (nth_error (parts h) i) as [p|] eqn:E.
  - destruct S as (s & A & B). exists p, s. auto.
  - exfalso. destruct N as [L _]. apply nth_error_None in E. lia.
Qed.

Lemma c159_refused_proof : forall {obj ty W} (P : Py obj ty W) h f k,
  get_filler P h = Ok f ->
  sub_filler_of f SkNone = Ok f /\
  (k <> SkNone -> comparable k -> (forall i, ~ names h k i) ->
   forall dflt t before after, (forall kt, In kt before -> fst kt = SkNone) ->
   (exists e, sub_filler_of f k = Raise e /\ is_lookup_error e = true) /\
   (exists e, make_keyed P dflt h (before ++ (k, t) :: after) = Raise e)).
Proof.
  intros obj ty W P h f k G. split; [unfold sub_filler_of; rewrite (named_part P h [] f SkNone None G eq_refl); reflexivity|].
  intros K C N dflt t before after B. destruct (named_none P h [] f k G K C N) as (e & E & L). split.
  - exists e. unfold sub_filler_of. rewrite E. split; [reflexivity|exact L].
  - unfold make_keyed. rewrite G. cbn [obind].
    assert (A : forall f1, members f1 = members f -> fixed f1 = fixed f -> exists e, apply_keyed P f1 (before ++ (k, t) :: after) = Raise e).
    { induction before as [|[k0 t0] before IH]; intros f1 M F.
      - cbn. unfold apply_to_filler. rewrite (named_by_shape f1 f k M F), E. cbn. eauto.
      - pose proof (B _ (or_introl eq_refl)) as K0. cbn in K0. subst k0. cbn [app apply_keyed]. unfold apply_to_filler.
        rewrite (named_by_shape f1 f SkNone M F), (named_part P h [] f SkNone None G eq_refl). cbn [obind].
        destruct (apply_at P None t0 f1) as [f2|e2] eqn:A; cbn [obind]; [|eauto]. destruct (apply_at_shape P _ _ _ _ A).
        apply IH; [intros kt I; apply B; right; exact I|congruence|congruence]. }
    destruct (A f eq_refl eq_refl) as (e1 & ->). cbn. eauto.
Qed.

Lemma c159_added_proof : forall {obj ty W} (P : Py obj ty W) dflt h ops nops,
  Forall2 (fun kt pt => stands_for h (fst kt) (fst pt) /\ snd kt = snd pt) ops nops ->
  make_keyed P dflt h ops = make_filler P dflt h nops.
Proof.
  intros obj ty W P dflt h ops nops H. unfold make_keyed, make_filler. destruct (get_filler P h) as [f|e] eqn:G; [|reflexivity]. cbn [obind].
  rewrite (keyed_as_numbered P h [] f G ops nops H f eq_refl eq_refl). reflexivity.
Qed.

Lemma c159_one_proof : forall {obj ty W} (h : @hint obj ty W) k i j, names h k i -> names h k j -> i = j.
Proof.
  intros obj ty W h k i j [L N] [M D]. destruct (has_members h).
  - destruct N as (z & -> & Z), D as (y & E & Y). injection E as <-. lia.
  - destruct N as [E N], D as [E' D]. destruct (Nat.lt_trichotomy i j) as [X|[X|X]]; [|exact X|].
    + apply key_eq_equals in E. assert (H := proj2 (key_eq_equals _ _ _) (D _ X)). congruence.
    + apply key_eq_equals in E'. assert (H := proj2 (key_eq_equals _ _ _) (N _ X)). congruence.
Qed.

Lemma prebind_app : forall {obj ty W} (P : Py obj ty W) ops more (fs : dict (@field obj ty W)),
  apply_prebind P (ops ++ more) fs = (do fs1 <- apply_prebind P ops fs; apply_prebind P more fs1).
Proof. intros obj ty W P ops more. induction ops as [|o r IH]; intro fs; [reflexivity|]. cbn [app apply_prebind]. destruct (apply_op P fs o); [apply IH|reflexivity]. Qed.

Lemma c159_no_field_proof : forall {obj ty W} (P : Py obj ty W) t fr ord un s anns inh st bases ops k key tok more parsers post c,
  make_class P (Decl t fr ord un s anns inh st bases ops parsers post) = Ok c -> ~ In k (keys (c_fields c)) ->
  make_class P (Decl t fr ord un s anns inh st bases (ops ++ (k, (key, tok)) :: more) parsers post) = Raise (mkexc AttributeError k).
Proof.
  intros obj ty W P t fr ord un s anns inh st bases ops k key tok more parsers post c H N.
  unfold make_class in *. cbn [d_ty d_frozen d_ordered d_unary d_style d_anns d_inherited_anns d_static d_bases d_prebind d_parsers d_post_new] in *.
  assert (EO : forall l, own_fields P (Decl t fr ord un s anns inh st bases (ops ++ (k, (key, tok)) :: more) parsers post) l = own_fields P (Decl t fr ord un s anns inh st bases ops parsers post) l).
  { induction l as [|[n a] l IH]; [reflexivity|]. cbn. rewrite IH. reflexivity. }
  rewrite EO. clear EO.
  destruct (own_fields _ _ _) as [own|]; [|discriminate]. cbn [obind] in *.
  destruct (inherit_fields own [] _) as [par|]; [|discriminate]. cbn [obind] in *.
  destruct (par ++ own) as [|a r] eqn:E; [discriminate|]. rewrite <- E in *. clear E a r.
  rewrite prebind_app. destruct (apply_prebind P ops (par ++ own)) as [fs1|] eqn:E1; [|discriminate]. cbn [obind] in *.
  destruct (bind_fields P t s fs1) as [fs2|] eqn:E2; [|discriminate]. injection H as <-. cbn [c_fields] in N.
  cbn [apply_prebind apply_op]. apply Classes_proofs.bind_fields_ok in E2. destruct E2 as [E2 _]. rewrite E2 in N.
  destruct (dget k fs1) eqn:EK; [|reflexivity]. destruct N. apply Dict_proofs.dget_some_key in EK. exact EK.
Qed.
