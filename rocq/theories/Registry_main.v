(** Registry_main.v -- proofs of the properties stated in Props_Registry.v: Which filler class an annotation gets (records/fillers/get_filler.py, builtin_fillers/repo.py) *)

From Verif Require Import Base Py Filler Hints Registry Spec_Registry Demo DemoTyping.
Open Scope list_scope.

Section R.
Context {O obj ty W : Type} (P : Py obj ty W) (T : @Typing ty).
Context (eqb : O -> O -> bool) (is_type : O -> bool) (issub : O -> O -> outcome bool).
Context (G : O -> option generic_kind) (A : Annots O ty) (sub : ty -> ty -> bool).
Context (L : lawful P T eqb is_type issub G A sub).
Notation lib := (library eqb P G A).
Notation cls := (a_class A).

Lemma args_same : forall o (ps : list (@typing obj ty W)), Forall2 (fun q p => a_typevar A q = true <-> p = YTypeVar) (a_args A o) ps ->
  has_args A o = Hints.has_args ps.
Proof.
  intros o ps H. unfold has_args, Hints.has_args. induction H as [|q p qs ps HQ _ IH]; [reflexivity|]. cbn. rewrite IH. f_equal. f_equal.
  destruct (a_typevar A q); [rewrite (proj1 HQ eq_refl); reflexivity|].
  destruct p; try reflexivity. cbn. apply HQ. reflexivity.
Qed.
Lemma resolve_S : forall n (r : registry O) o, resolve eqb is_type issub (S n) r o =
  match find eqb o (fmap r) with
  | Some c => Ok (Made c o)
  | None =>
      do a <- ask (checkers r) o;
      match a with
      | GetFiller o' => resolve eqb is_type issub n r o'
      | Use c => Ok (Made c o)
      | NoMatch =>
          if is_type o
          then do s <- supertype issub o (fmap r); Ok (match s with Some c => Made c o | None => Dumb o end)
          else Ok (Dumb o)
      end
  end.
Proof. reflexivity. Qed.
Lemma eqb_refl : forall a, eqb a a = true.
Proof. intros. now apply (l_eqb _ _ _ _ _ _ _ _ L). Qed.
Lemma eqb_no : forall a b, a <> b -> eqb a b = false.
Proof. intros a b N. destruct (eqb a b) eqn:E; auto. apply (l_eqb _ _ _ _ _ _ _ _ L) in E. contradiction. Qed.
Lemma type_class : forall t, is_type (cls t) = true.
Proof. intros. apply (l_type _ _ _ _ _ _ _ _ L). eauto. Qed.
Lemma cls_no : forall t u, t <> u -> eqb (cls t) (cls u) = false.
Proof. intros t u N. apply eqb_no. intro E. apply N. now apply (l_class_inj _ _ _ _ _ _ _ _ L). Qed.
Lemma untyped_std : forall o, is_type o = false -> find eqb o (std_map P A) = None.
Proof.
  intros o H. unfold std_map, find.
  repeat (rewrite eqb_no; [|intros ->; rewrite type_class in H; discriminate]). reflexivity.
Qed.
Lemma plain_class : forall t, a_supertype A (cls t) = None /\ a_origin A (cls t) = None.
Proof. intros t. apply (l_plain _ _ _ _ _ _ _ _ L). eauto. Qed.
(** what has an origin or a supertype *)
Lemma formed : forall o, (exists s, a_supertype A o = Some s) \/ (exists g, a_origin A o = Some g) ->
  is_type o = false /\ o <> a_none A /\ o <> a_any A /\ o <> a_callable A.
Proof.
  intros o H.
  assert (K : ~ ((exists t, o = cls t) \/ o = a_none A \/ o = a_any A \/ o = a_callable A)).
  { intro E. apply (l_plain _ _ _ _ _ _ _ _ L) in E as [E1 E2]. destruct H as [[s H]|[s H]]; congruence. }
  repeat split; try (intro; apply K; auto; fail).
  destruct (is_type o) eqn:E; auto. apply (l_type _ _ _ _ _ _ _ _ L) in E. exfalso. auto.
Qed.
Lemma find_class : forall t, find eqb (cls t) (std_map P A) =
  match class_kind P t with
  | KBool => Some CBool | KNone => Some CNone | KEllipsis => Some CEllipsis
  | _ => if ty_eqb P t (t_object P) then Some CSimple else None end.
Proof.
  intros t. destruct (l_four _ _ _ _ _ _ _ _ L) as (a & b & c & d & e & f).
  unfold std_map, find, class_kind.
  destruct (ty_eqP P t (t_bool P)) as [->|N1]; [now rewrite eqb_refl|]. rewrite (cls_no _ _ N1).
  destruct (ty_eqP P t (t_none P)) as [->|N2]; [now rewrite eqb_refl|]. rewrite (cls_no _ _ N2).
  destruct (ty_eqP P t (t_ellipsis P)) as [->|N3].
  - rewrite cls_no by congruence. now rewrite eqb_refl.
  - destruct (ty_eqP P t (t_object P)) as [->|N4]; [now rewrite eqb_refl|]. rewrite (cls_no _ _ N4).
    now rewrite (cls_no _ _ N3).
Qed.
Lemma ask_class : forall t, ask (checkers lib) (cls t) = Ok NoMatch.
Proof.
  intros t. destruct (plain_class t) as [E1 E2]. destruct (l_apart _ _ _ _ _ _ _ _ L) as (a & b & c & _).
  unfold library, checkers, ask, obind, callable_checker, none_checker, typing_checker. rewrite E1, E2.
  rewrite eqb_no by (intro E; rewrite <- E, type_class in c; discriminate).
  rewrite eqb_no by (intro E; rewrite <- E, type_class in a; discriminate).
  rewrite eqb_no by (intro E; rewrite <- E, type_class in b; discriminate). reflexivity.
Qed.
Lemma super_std : forall t, class_kind P t = KSimple t -> supertype issub (cls t) (std_map P A) = Ok (Some CSimple).
Proof.
  intros t K. unfold std_map, supertype, obind. rewrite !(l_sub _ _ _ _ _ _ _ _ L).
  unfold class_kind in K.
  destruct (sub t (t_bool P)) eqn:E1.
  { apply (l_bool _ _ _ _ _ _ _ _ L) in E1. subst. destruct (ty_eqP P (t_bool P) (t_bool P)); [discriminate|congruence]. }
  destruct (sub t (t_none P)) eqn:E2.
  { apply (l_none _ _ _ _ _ _ _ _ L) in E2. subst. destruct (ty_eqP P (t_none P) (t_bool P)); [discriminate|].
    destruct (ty_eqP P (t_none P) (t_none P)); [discriminate|congruence]. }
  now rewrite (l_object _ _ _ _ _ _ _ _ L).
Qed.
Lemma class_kinds : forall t, (class_kind P t = KBool /\ t = t_bool P) \/ (class_kind P t = KNone /\ t = t_none P)
  \/ (class_kind P t = KEllipsis /\ t = t_ellipsis P) \/ class_kind P t = KSimple t.
Proof.
  intros t. unfold class_kind. destruct (ty_eqP P t (t_bool P)); auto. destruct (ty_eqP P t (t_none P)); auto.
  destruct (ty_eqP P t (t_ellipsis P)); auto.
Qed.
Lemma resolve_class : forall t, exists m, (forall n, resolve eqb is_type issub (S n) lib (cls t) = Ok m) /\
  (forall args f, Ok (FAnn (mk_afiller (class_kind P t) args)) = Ok f -> is_built P A f m) /\
  (forall o', m <> Dumb o').
Proof.
  intros t. setoid_rewrite resolve_S. change (fmap lib) with (std_map P A). rewrite find_class.
  destruct (class_kinds t) as [[-> ->] | [[-> ->] | [[-> ->] | K]]].
  1-3: eexists; split; [reflexivity|]; split; [intros args f E; injection E as <-; cbn; auto|discriminate].
  rewrite K. destruct (ty_eqb P t (t_object P)) eqn:EO.
  - eexists; split; [reflexivity|]; split; [intros args f E; injection E as <-; cbn; auto|discriminate].
  - rewrite ask_class. cbn [obind]. rewrite type_class, (super_std _ K).
    eexists; split; [reflexivity|]; split; [intros args f E; injection E as <-; cbn; auto|discriminate].
Qed.
Lemma ask_formed : forall o, is_type o = false -> o <> a_none A -> o <> a_callable A ->
  ask (checkers lib) o = typing_checker eqb P G A o.
Proof.
  intros o _ N1 N2. unfold library, checkers, ask, callable_checker, none_checker, obind.
  rewrite (eqb_no _ _ N1), (eqb_no _ _ N2). unfold typing_checker. destruct (a_supertype A o); auto.
  destruct (eqb o (a_any A)); auto. destruct (a_origin A o); auto.
  repeat (match goal with |- context [if ?b then _ else _] => destruct b end; auto).
  destruct (G o0); auto.
Qed.
Lemma resolve_untyped : forall n o, is_type o = false -> o <> a_none A -> o <> a_callable A ->
  resolve eqb is_type issub (S n) lib o =
  do a <- typing_checker eqb P G A o;
  match a with
  | GetFiller o' => resolve eqb is_type issub n lib o'
  | Use c => Ok (Made c o)
  | NoMatch => Ok (Dumb o)
  end.
Proof.
  intros n o H N1 N2. rewrite resolve_S. change (fmap lib) with (std_map P A). rewrite (untyped_std _ H), (ask_formed _ H N1 N2), H.
  reflexivity.
Qed.
Lemma unknown_dumb : forall n o, unknown is_type A o -> a_origin A o = None \/ unknown_form P G A o ->
  resolve eqb is_type issub (S n) lib o = Ok (Dumb o).
Proof.
  intros n o (U1 & U2 & U3 & U4 & U5) H. rewrite (resolve_untyped n o U1 U3 U5).
  unfold typing_checker. rewrite U2, (eqb_no _ _ U4). cbn [obind].
  destruct H as [E | (g & E & H1 & H2 & H3 & H4 & (q & HQ & EQ) & H6)]; rewrite E; [reflexivity|].
  assert (H5 : has_args A o = true) by (apply existsb_exists; exists q; rewrite EQ; auto).
  now rewrite (eqb_no _ _ H1), (eqb_no _ _ H2), (eqb_no _ _ H3), (eqb_no _ _ H4), H5, H6.
Qed.
Lemma resolve_callable : forall n, resolve eqb is_type issub (S n) lib (a_callable A) = Ok (Made CCallable (a_callable A)).
Proof.
  intros n. destruct (l_apart _ _ _ _ _ _ _ _ L) as (_ & _ & c & _). rewrite resolve_S.
  change (fmap lib) with (std_map P A). rewrite (untyped_std _ c).
  unfold library, checkers, ask, callable_checker. rewrite eqb_refl. reflexivity.
Qed.
Lemma dumb_built : forall (args : list (@token obj ty W)) f o, dumb args = Ok f -> is_built P A f (Dumb o).
Proof. intros [|t r] f o E; [injection E as <-; exact I|discriminate]. Qed.
End R.

Lemma c141_library_proof : forall {O obj ty W} (P : Py obj ty W) T eqb is_type issub G (A : Annots O ty) sub o y,
  lawful P T eqb is_type issub G A sub -> pictures P T is_type G A o y -> (forall y' ms, y <> YAnn y' ms) ->
  exists n0 m, (forall n, n0 <= n -> resolve eqb is_type issub n (library eqb P G A) o = Ok m) /\
    (forall args f, gaf P args (hint_of P T y) = Ok f -> is_built P A f m) /\
    (forall o' args, m = Dumb o' -> args <> [] -> exists e, gaf P args (hint_of P T y) = Raise e).
Proof.
  intros O obj ty W P T eqb is_type issub G A sub o y L. revert o.
  induction y as [t| | | | | | |y IH|ys|lid vals|t ps|y _ ms]; intros o H NA; cbn [pictures] in H.
  - subst. destruct (resolve_class P T eqb is_type issub G A sub L t) as (m & E & B & N). exists 1, m. split; [|split].
    + intros [|n] LE; [lia|]. apply E.
    + intros args f. cbn. apply B.
    + intros o' args ->. now destruct (N o').
  - subst. destruct (l_apart _ _ _ _ _ _ _ _ L) as (a & _ & _ & _ & N & _).
    destruct (resolve_class P T eqb is_type issub G A sub L (t_none P)) as (m & E & B & ND). exists 2, m. split; [|split].
    + intros [|[|n]] LE; [lia|lia|]. rewrite resolve_S. change (fmap (library eqb P G A)) with (std_map P A).
      rewrite (untyped_std P T eqb is_type issub G A sub L _ a).
      unfold library, checkers, ask, callable_checker, none_checker at 1, obind.
      rewrite (eqb_no P T eqb is_type issub G A sub L _ _ N), (eqb_refl P T eqb is_type issub G A sub L). apply E.
    + intros args f. cbn. intros K. apply (B args). rewrite <- K. do 3 f_equal. unfold class_kind.
      destruct (l_four _ _ _ _ _ _ _ _ L) as (X & _). destruct (ty_eqP P (t_none P) (t_bool P)); [congruence|].
      destruct (ty_eqP P (t_none P) (t_none P)); [reflexivity|congruence].
    + intros o' args ->. now destruct (ND o').
  - subst. destruct (l_apart _ _ _ _ _ _ _ _ L) as (_ & a & _ & N1 & _ & N2).
    destruct (l_plain _ _ _ _ _ _ _ _ L (a_any A)) as [Q _]; [auto|].
    destruct (resolve_class P T eqb is_type issub G A sub L (t_object P)) as (m & E & B & ND). exists 2, m. split; [|split].
    + intros [|[|n]] LE; [lia|lia|]. rewrite (resolve_untyped P T eqb is_type issub G A sub L) by (auto; congruence).
      unfold typing_checker. rewrite Q, (eqb_refl P T eqb is_type issub G A sub L). apply E.
    + intros args f. cbn. intros K. apply (B args). rewrite <- K. do 3 f_equal. unfold class_kind.
      destruct (l_four _ _ _ _ _ _ _ _ L) as (X1 & X2 & X3 & X4 & X5 & X6).
      destruct (ty_eqP P (t_object P) (t_bool P)); [congruence|].
      destruct (ty_eqP P (t_object P) (t_none P)); [congruence|].
      destruct (ty_eqP P (t_object P) (t_ellipsis P)); [congruence|reflexivity].
    + intros o' args ->. now destruct (ND o').
  - exists 2, (Made CCallable (a_callable A)). split; [|split].
    + intros [|[|n]] LE; [lia|lia|]. destruct H as [-> | [H1 H2]]; [apply (resolve_callable P T eqb is_type issub G A sub L)|].
      destruct (formed P T eqb is_type issub G A sub L o) as (F1 & F2 & F3 & F4); [right; eauto|].
      rewrite (resolve_untyped P T eqb is_type issub G A sub L) by auto. unfold typing_checker.
      destruct (l_forms _ _ _ _ _ _ _ _ L) as (_ & _ & _ & M1 & M2 & M3).
      rewrite H1, H2, (eqb_no P T eqb is_type issub G A sub L _ _ F3), (eqb_no P T eqb is_type issub G A sub L _ _ M1),
        (eqb_no P T eqb is_type issub G A sub L _ _ M2), (eqb_no P T eqb is_type issub G A sub L _ _ M3),
        (eqb_refl P T eqb is_type issub G A sub L).
      apply (resolve_callable P T eqb is_type issub G A sub L).
    + intros args f E. injection E as <-. cbn. auto.
    + discriminate.
  - exists 1, (Dumb o). destruct H as [H1 H2]. split; [|split].
    + intros [|n] LE; [lia|]. now apply (unknown_dumb P T eqb is_type issub G A sub L).
    + intros args f. apply dumb_built.
    + intros o' [|? ?] _ NE; [congruence|]. cbn. eauto.
  - exists 1, (Dumb o). destruct H as [H1 H2]. split; [|split].
    + intros [|n] LE; [lia|]. now apply (unknown_dumb P T eqb is_type issub G A sub L).
    + intros args f. apply dumb_built.
    + intros o' [|? ?] _ NE; [congruence|]. cbn. eauto.
  - exists 1, (Dumb o). destruct H as [H1 H2]. split; [|split].
    + intros [|n] LE; [lia|]. now apply (unknown_dumb P T eqb is_type issub G A sub L).
    + intros args f. apply dumb_built.
    + intros o' [|? ?] _ NE; [congruence|]. cbn. eauto.
  - destruct H as (s & H1 & H2).
    destruct (formed P T eqb is_type issub G A sub L o) as (F1 & F2 & F3 & F4); [left; eauto|].
    assert (ST : forall n, resolve eqb is_type issub (S n) (library eqb P G A) o = resolve eqb is_type issub n (library eqb P G A) s).
    { intros n. rewrite (resolve_untyped P T eqb is_type issub G A sub L) by auto. unfold typing_checker. now rewrite H1. }
    assert (C : (exists y' ms, y = YAnn y' ms) \/ forall y' ms, y <> YAnn y' ms).
    { destruct y; try (right; congruence). left; eauto. }
    destruct C as [(y' & ms & ->) | C].
    + exists 2, (Dumb s). cbn [pictures] in H2. destruct H2 as [U1 U2]. split; [|split].
      * intros [|[|n]] LE; [lia|lia|]. rewrite ST. apply (unknown_dumb P T eqb is_type issub G A sub L); auto.
      * intros args f. cbn. apply dumb_built.
      * intros o' [|? ?] _ NE; [congruence|]. cbn. eauto.
    + destruct (IH s H2 C) as (n0 & m & E & B & D). exists (S n0), m.
      assert (K : forall args, gaf P args (hint_of P T (YNewType y)) = gaf P args (hint_of P T y)).
      { intros args. cbn. destruct (hint_of P T y) eqn:Q; auto.
        destruct y; cbn in Q; try discriminate.
        - repeat match type of Q with (if ?b then _ else _) = _ => destruct b | (match ?b with _ => _ end) = _ => destruct b end; discriminate.
        - now destruct (C y ms). }
      split; [|split].
      * intros [|n] LE; [lia|]. rewrite ST. apply E. lia.
      * intros args f. rewrite K. apply B.
      * intros o' args. rewrite K. apply D.
  - destruct H as [H1 H2]. destruct (formed P T eqb is_type issub G A sub L o) as (F1 & F2 & F3 & F4); [right; eauto|].
    exists 1, (Made CUnion o). split; [|split].
    + intros [|n] LE; [lia|]. rewrite (resolve_untyped P T eqb is_type issub G A sub L) by auto. unfold typing_checker.
      now rewrite H1, H2, (eqb_no P T eqb is_type issub G A sub L _ _ F3), (eqb_refl P T eqb is_type issub G A sub L).
    + intros args f. cbn. destruct (mapO _ _); [|discriminate]. intros E. injection E as <-. cbn. auto.
    + discriminate.
  - destruct H as [H1 H2]. destruct (formed P T eqb is_type issub G A sub L o) as (F1 & F2 & F3 & F4); [right; eauto|].
    destruct (l_forms _ _ _ _ _ _ _ _ L) as (_ & _ & M & _).
    exists 1, (Made CLiteral o). split; [|split].
    + intros [|n] LE; [lia|]. rewrite (resolve_untyped P T eqb is_type issub G A sub L) by auto. unfold typing_checker.
      now rewrite H1, H2, (eqb_no P T eqb is_type issub G A sub L _ _ F3), (eqb_no P T eqb is_type issub G A sub L (a_literal A) (a_union A)),
        (eqb_refl P T eqb is_type issub G A sub L) by auto.
    + intros args f. cbn. intros E. injection E as <-. cbn. auto.
    + discriminate.
  - destruct H as (H1 & H2 & H3 & H4' & H5). assert (H4 := args_same A o ps H4').
    destruct (formed P T eqb is_type issub G A sub L o) as (F1 & F2 & F3 & F4); [right; eauto|].
    destruct (l_forms _ _ _ _ _ _ _ _ L) as (M1 & M2 & _ & _ & _ & _).
    pose proof (type_class P T eqb is_type issub G A sub L t) as TC.
    assert (N1 : eqb (a_class A t) (a_union A) = false) by (apply (eqb_no P T eqb is_type issub G A sub L); congruence).
    assert (N2 : eqb (a_class A t) (a_literal A) = false) by (apply (eqb_no P T eqb is_type issub G A sub L); congruence).
    assert (ST : forall n, resolve eqb is_type issub (S n) (library eqb P G A) o =
      if eqb (a_class A t) (a_class A (t_type P))
      then if has_args A o then Ok (Made CType o) else resolve eqb is_type issub n (library eqb P G A) (a_class A (t_type P))
      else if has_args A o then Ok (match gmap T t with Some k => Made (generic_class k) o | None => Dumb o end)
      else resolve eqb is_type issub n (library eqb P G A) (a_class A t)).
    { intros n. rewrite (resolve_untyped P T eqb is_type issub G A sub L) by auto. unfold typing_checker.
      rewrite H1, H2, (eqb_no P T eqb is_type issub G A sub L _ _ F3), N1, N2, (eqb_no P T eqb is_type issub G A sub L _ _ H3),
        (l_gmap _ _ _ _ _ _ _ _ L).
      cbn [obind]. destruct (eqb (a_class A t) (a_class A (t_type P))); destruct (has_args A o); auto. destruct (gmap T t); auto. }
    assert (TT : eqb (a_class A t) (a_class A (t_type P)) = ty_eqb P t (t_type P)).
    { destruct (ty_eqP P t (t_type P)) as [->|N]; [apply (eqb_refl P T eqb is_type issub G A sub L)|apply (cls_no P T eqb is_type issub G A sub L); auto]. }
    rewrite TT, H4 in ST. cbn [hint_of]. destruct (Hints.has_args ps) eqn:HA.
    + destruct (ty_eqb P t (t_type P)).
      * exists 1, (Made CType o). split; [|split].
        -- intros [|n] LE; [lia|apply ST].
        -- intros args f. cbn. intros E. injection E as <-. cbn. auto.
        -- discriminate.
      * exists 1. eexists. split; [intros [|n] LE; [lia|apply ST]|]. unfold arity in H5.
        destruct (gmap T t) as [[|rk|rk|]|]; cbn [generic_class].
        -- split; [|discriminate]. intros args f.
           match goal with |- gaf P args ?h = _ -> _ => assert (X : (exists p, h = HTupleV p) \/ exists hs, h = HTupleN hs) end.
           { destruct ps as [|p [|q r]]; [eauto|eauto|]. destruct q, r; eauto. }
           destruct X as [[p ->] | [hs ->]]; cbn.
           ++ destruct (gaf P [] p); [|discriminate]. intros E; injection E as <-; cbn; auto.
           ++ destruct (mapO _ _); [|discriminate]. intros E; injection E as <-; cbn; auto.
        -- split; [|discriminate]. intros args f. destruct ps as [|p [|]]; cbn in H5; try discriminate. cbn.
           destruct (gaf P [] (hint_of P T p)); [|discriminate]. intros E; injection E as <-; cbn; auto.
        -- split; [|discriminate]. intros args f. destruct ps as [|p [|q [|]]]; cbn in H5; try discriminate. cbn.
           destruct (gaf P [] (hint_of P T p)); [|discriminate]. cbn. destruct (gaf P [] (hint_of P T q)); [|discriminate].
           intros E; injection E as <-; cbn; auto.
        -- split; [|discriminate]. intros args f. cbn. destruct (mapO _ _); [|discriminate]. intros E; injection E as <-; cbn; auto.
        -- split; [intros args f; apply dumb_built|]. intros o' [|? ?] _ NE; [congruence|]. cbn. eauto.
    + destruct (resolve_class P T eqb is_type issub G A sub L t) as (m & E & B & N). exists 2, m. split; [|split].
      * intros [|[|n]] LE; [lia|lia|]. rewrite ST. destruct (ty_eqP P t (t_type P)) as [<-|]; apply E.
      * intros args f. cbn. apply B.
      * intros o' args ->. now destruct (N o').
  - now destruct (NA y ms).
Qed.

Section H.
Context {O : Type} (eqb : O -> O -> bool) (E : forall a b, eqb a b = true <-> a = b).
Lemma no_eqb : forall a b, a <> b -> eqb a b = false.
Proof. intros a b N. destruct (eqb a b) eqn:Q; auto. apply E in Q. contradiction. Qed.
Lemma find_put : forall k c m o, find eqb o (put eqb k c m) = if eqb o k then Some c else find eqb o m.
Proof.
  induction m as [|[k' c'] r IH]; intros o; cbn; auto.
  destruct (eqb k k') eqn:K; cbn.
  - apply E in K. subst k'. now destruct (eqb o k).
  - rewrite IH. destruct (eqb o k') eqn:Q; auto. destruct (eqb o k) eqn:R; auto.
    apply E in Q, R. assert (X : k = k') by congruence. apply E in X. congruence.
Qed.
Definition last_from (k : O) (d : option fclass) (es : list event) : option fclass :=
  fold_left (fun acc e => match e with Register k' c => if eqb k k' then Some c else acc | Append _ => acc end) es d.
Lemma last_from_none : forall k es d, last_from k d es = match last_for eqb k es with Some c => Some c | None => d end.
Proof.
  intros k. change (last_for eqb k) with (last_from k None).
  induction es as [|[k' c|f] r IH]; intros d; [reflexivity| |exact (IH d)].
  change (last_from k (if eqb k k' then Some c else d) r = match last_from k (if eqb k k' then Some c else None) r with Some c0 => Some c0 | None => d end).
  rewrite IH. rewrite (IH (if eqb k k' then Some c else None)).
  destruct (last_from k None r); auto. destruct (eqb k k'); auto.
Qed.
Lemma find_history : forall es r o,
  find eqb o (fmap (history eqb r es)) = match last_for eqb o es with Some c => Some c | None => find eqb o (fmap r) end.
Proof.
  induction es as [|[k c|f] es IH]; intros r o; cbn [history fold_left]; auto.
  - change (fold_left (happen eqb) es ?x) with (history eqb x es). rewrite IH. cbn [happen register fmap].
    rewrite find_put. unfold last_for at 2. cbn [fold_left]. change (fold_left _ es ?x) with (last_from o x es).
    rewrite last_from_none. destruct (last_for eqb o es); auto. destruct (eqb o k); auto.
  - change (fold_left (happen eqb) es ?x) with (history eqb x es). rewrite IH. reflexivity.
Qed.
Lemma checkers_history : forall es r, checkers (history eqb r es) = checkers r ++ appended es.
Proof.
  induction es as [|[k c|f] es IH]; intros r; cbn [history fold_left appended flat_map].
  - now rewrite app_nil_r.
  - change (fold_left (happen eqb) es ?x) with (history eqb x es). rewrite IH. reflexivity.
  - change (fold_left (happen eqb) es ?x) with (history eqb x es). rewrite IH. cbn. now rewrite <- app_assoc.
Qed.
Lemma ask_app : forall cs cs' (o : O), ask (cs ++ cs') o =
  do a <- ask cs o; match a with NoMatch => ask cs' o | _ => Ok a end.
Proof.
  induction cs as [|c r IH]; intros cs' o; cbn; auto. destruct (c o) as [[]|]; cbn; auto.
Qed.
(** entries behind the one that stops the search do not matter *)
Lemma super_put : forall issub k c m o k0 c0 m1 m2,
  m = m1 ++ (k0, c0) :: m2 -> issub o k0 = Ok true -> k <> k0 -> (In k (map fst m1) -> issub o k = Ok false) ->
  supertype issub o (put eqb k c m) = supertype issub o m.
Proof.
  intros issub k c m o k0 c0 m1 m2 -> S N. induction m1 as [|[k' c'] r IH]; intros H; cbn.
  - rewrite (no_eqb _ _ N). cbn. now rewrite S.
  - destruct (eqb k k') eqn:Q; cbn.
    + apply E in Q. subst k'. now rewrite (H (or_introl eq_refl)).
    + destruct (issub o k') as [[]|]; cbn; auto. apply IH. intros I. apply H. right; auto.
Qed.
Lemma super_first : forall issub o t c m1 m2, Forall (fun e : O * fclass => issub o (fst e) = Ok false) m1 -> issub o t = Ok true ->
  supertype issub o (m1 ++ (t, c) :: m2) = Ok (Some c).
Proof.
  intros issub o t c m1 m2 F S. induction F as [|[k' c'] r H F IH]; cbn; [now rewrite S|]. cbn in H. rewrite H. auto.
Qed.
End H.
Section K.
Context {O obj ty W : Type} (P : Py obj ty W) (T : @Typing ty).
Context (eqb : O -> O -> bool) (is_type : O -> bool) (issub : O -> O -> outcome bool).
Context (G : O -> option generic_kind) (A : Annots O ty) (sub : ty -> ty -> bool).
Context (L : lawful P T eqb is_type issub G A sub).
Notation lib := (library eqb P G A).
Notation cls := (a_class A).
(** the map always has the four entries of the library in front *)
Lemma front : forall es, exists b n ob m,
  fmap (history eqb lib es) = [(cls (t_bool P), b); (cls (t_none P), n); (cls (t_object P), ob)] ++ m /\
  ob = match last_for eqb (cls (t_object P)) es with Some c => c | None => CSimple end.
Proof.
  intros es.
  assert (H : forall es r b n ob m, fmap r = [(cls (t_bool P), b); (cls (t_none P), n); (cls (t_object P), ob)] ++ m ->
    exists b' n' m', fmap (history eqb r es) = [(cls (t_bool P), b'); (cls (t_none P), n');
      (cls (t_object P), match last_for eqb (cls (t_object P)) es with Some c => c | None => ob end)] ++ m').
  { clear es. induction es as [|[k c|f] es IH]; intros r b n ob m H; cbn [history fold_left]; [eauto| |].
    - change (fold_left (happen eqb) es ?x) with (history eqb x es).
      unfold last_for. cbn [fold_left]. change (fold_left _ es ?x) with (last_from eqb (cls (t_object P)) x es).
      rewrite last_from_none.
      assert (X : exists b' n' m', fmap (happen eqb r (Register k c)) = [(cls (t_bool P), b'); (cls (t_none P), n');
        (cls (t_object P), if eqb (cls (t_object P)) k then c else ob)] ++ m').
      { cbn. rewrite H. cbn. destruct (l_four _ _ _ _ _ _ _ _ L) as (a1 & a2 & a3 & a4 & a5 & a6).
        pose proof (l_eqb _ _ _ _ _ _ _ _ L) as EQ.
        destruct (eqb k (cls (t_bool P))) eqn:Q1.
        { apply EQ in Q1. subst. rewrite (cls_no P T eqb is_type issub G A sub L) by auto. cbn. eauto. }
        destruct (eqb k (cls (t_none P))) eqn:Q2.
        { apply EQ in Q2. subst. rewrite (cls_no P T eqb is_type issub G A sub L) by auto. cbn. eauto. }
        destruct (eqb k (cls (t_object P))) eqn:Q3.
        { apply EQ in Q3. subst. rewrite (eqb_refl P T eqb is_type issub G A sub L). cbn. eauto. }
        rewrite (no_eqb eqb EQ) by (intros <-; rewrite (proj2 (EQ _ _) eq_refl) in Q3; discriminate). cbn. eauto. }
      destruct X as (b' & n' & m' & X). destruct (IH _ _ _ _ _ X) as (b2 & n2 & m2 & Y). exists b2, n2, m2. rewrite Y.
      destruct (last_for eqb (cls (t_object P)) es); auto. destruct (eqb (cls (t_object P)) k); auto.
    - change (fold_left (happen eqb) es ?x) with (history eqb x es). apply (IH _ b n ob m). auto. }
  destruct (H es lib CBool CNone CSimple [(cls (t_ellipsis P), CEllipsis)] eq_refl) as (b & n & m & X).
  exists b, n, (match last_for eqb (cls (t_object P)) es with Some c => c | None => CSimple end), m. auto.
Qed.
Lemma super_history : forall es t, t <> t_bool P -> t <> t_none P ->
  supertype issub (cls t) (fmap (history eqb lib es)) =
  Ok (Some (match last_for eqb (cls (t_object P)) es with Some c => c | None => CSimple end)).
Proof.
  intros es t N1 N2. destruct (front es) as (b & n & ob & m & -> & ->).
  change (([?x; ?y; ?z] ++ m)) with ([x; y] ++ z :: m).
  apply super_first.
  - repeat constructor; cbn; rewrite (l_sub _ _ _ _ _ _ _ _ L); f_equal.
    + destruct (sub t (t_bool P)) eqn:Q; auto. apply (l_bool _ _ _ _ _ _ _ _ L) in Q. contradiction.
    + destruct (sub t (t_none P)) eqn:Q; auto. apply (l_none _ _ _ _ _ _ _ _ L) in Q. contradiction.
  - now rewrite (l_sub _ _ _ _ _ _ _ _ L), (l_object _ _ _ _ _ _ _ _ L).
Qed.
End K.

Lemma c141_registered_proof : forall {O obj ty W} (P : Py obj ty W) T eqb is_type issub G (A : Annots O ty) sub es k c n,
  lawful P T eqb is_type issub G A sub -> last_for eqb k es = Some c ->
  resolve eqb is_type issub (S n) (history eqb (library eqb P G A) es) k = Ok (Made c k).
Proof.
  intros O obj ty W P T eqb is_type issub G A sub es k c n L H. rewrite resolve_S.
  rewrite (find_history eqb (l_eqb _ _ _ _ _ _ _ _ L)), H. reflexivity.
Qed.

Lemma c141_unregister_proof : forall {O obj ty W} (P : Py obj ty W) T eqb is_type issub G (A : Annots O ty) sub k c (r : registry O),
  lawful P T eqb is_type issub G A sub ->
  (find eqb k (fmap r) = None -> unregister eqb k (register eqb k c r) = r) /\
  (forall k', find eqb k' (fmap (unregister eqb k r)) = if eqb k' k then None else find eqb k' (fmap r)).
Proof.
  intros O obj ty W P T eqb is_type issub G A sub k c [m cs] L.
  assert (E : forall a b, eqb a b = true <-> a = b) by (apply (l_eqb _ _ _ _ _ _ _ _ L)). split.
  - intros H. unfold unregister, register, fmap, checkers in *. f_equal. induction m as [|[k' c'] m IH]; cbn in *.
    + rewrite (proj2 (E k k) eq_refl). reflexivity.
    + destruct (eqb k k') eqn:EK; [discriminate|]. cbn. rewrite EK. cbn. f_equal. apply IH. exact H.
  - intros k'. unfold unregister, fmap, del. induction m as [|[k1 c1] m IH]; cbn.
    + destruct (eqb k' k); reflexivity.
    + destruct (eqb k k1) eqn:E1; cbn.
      * apply E in E1. subst k1. rewrite IH. destruct (eqb k' k); reflexivity.
      * destruct (eqb k' k1) eqn:E2; [|exact IH]. destruct (eqb k' k) eqn:E3; [|reflexivity].
        apply E in E2. apply E in E3. assert (X : eqb k k1 = true) by (apply E; congruence). congruence.
Qed.

Lemma c141_others_proof : forall {O obj ty W} (P : Py obj ty W) T eqb is_type issub G (A : Annots O ty) sub es o n,
  lawful P T eqb is_type issub G A sub -> appended es = [] -> last_for eqb (a_class A (t_object P)) es = None ->
  (forall k, leads eqb (library eqb P G A) k o -> last_for eqb k es = None) ->
  resolve eqb is_type issub n (history eqb (library eqb P G A) es) o = resolve eqb is_type issub n (library eqb P G A) o.
Proof.
  intros O obj ty W P T eqb is_type issub G A sub es o n L NA NO. revert o.
  pose proof (l_eqb _ _ _ _ _ _ _ _ L) as EQ.
  induction n as [|n IH]; intros o H; [reflexivity|]. rewrite !resolve_S, (find_history eqb EQ), checkers_history, NA, app_nil_r.
  rewrite (H o (Leads_here _ _ _)). destruct (find eqb o (fmap (library eqb P G A))) eqn:F; [reflexivity|].
  destruct (ask (checkers (library eqb P G A)) o) as [[|o'|c]|e] eqn:Q; cbn [obind]; auto.
  - destruct (is_type o) eqn:TY; auto. pose proof TY as TY'. apply (l_type _ _ _ _ _ _ _ _ L) in TY' as [t ->].
    change (fmap (library eqb P G A)) with (std_map P A) in F. rewrite (find_class P T eqb is_type issub G A sub L) in F.
    destruct (class_kinds P t) as [[K _] | [[K _] | [[K _] | K]]]; rewrite K in F; try discriminate.
    assert (N : t <> t_bool P /\ t <> t_none P).
    { unfold class_kind in K. destruct (ty_eqP P t (t_bool P)); [discriminate|]. destruct (ty_eqP P t (t_none P)); [discriminate|]. auto. }
    destruct N as [N1 N2]. rewrite (super_history P T eqb is_type issub G A sub L es t N1 N2), NO.
    change (fmap (library eqb P G A)) with (std_map P A). now rewrite (super_std P T eqb is_type issub G A sub L t K).
  - apply IH. intros k K. apply H. eapply Leads_via; eauto.
Qed.

Lemma c141_subclasses_refuted_proof : forall {O obj ty W} (P : Py obj ty W) T eqb is_type issub G (A : Annots O ty) sub es t c u n,
  lawful P T eqb is_type issub G A sub -> appended es = [] ->
  last_for eqb (a_class A t) es = Some c -> t <> t_object P -> sub u t = true ->
  last_for eqb (a_class A u) es = None -> class_kind P u = KSimple u -> u <> t_object P ->
  resolve eqb is_type issub (S n) (history eqb (library eqb P G A) es) (a_class A u) =
  Ok (Made (match last_for eqb (a_class A (t_object P)) es with Some c' => c' | None => CSimple end) (a_class A u)).
Proof.
  intros O obj ty W P T eqb is_type issub G A sub es t c u n L NA _ _ _ NU K NO.
  rewrite resolve_S, (find_history eqb (l_eqb _ _ _ _ _ _ _ _ L)), NU, checkers_history, NA, app_nil_r.
  change (fmap (library eqb P G A)) with (std_map P A). rewrite (find_class P T eqb is_type issub G A sub L), K.
  destruct (ty_eqP P u (t_object P)); [contradiction|]. rewrite (ask_class P T eqb is_type issub G A sub L). cbn [obind].
  rewrite (type_class P T eqb is_type issub G A sub L).
  assert (N : u <> t_bool P /\ u <> t_none P).
  { unfold class_kind in K. destruct (ty_eqP P u (t_bool P)); [discriminate|]. destruct (ty_eqP P u (t_none P)); [discriminate|]. auto. }
  destruct N as [N1 N2]. now rewrite (super_history P T eqb is_type issub G A sub L es u N1 N2).
Qed.

Lemma c141_subclasses_partial_proof : forall {O obj ty W} (P : Py obj ty W) T eqb is_type issub G (A : Annots O ty) sub m1 t c m2 u n,
  lawful P T eqb is_type issub G A sub ->
  Forall (fun e => exists t', fst e = a_class A t' /\ sub u t' = false) m1 -> sub u t = true ->
  find eqb (a_class A u) (m1 ++ (a_class A t, c) :: m2) = None ->
  resolve eqb is_type issub (S n) (Registry (m1 ++ (a_class A t, c) :: m2) (checkers (library eqb P G A))) (a_class A u)
  = Ok (Made c (a_class A u)).
Proof.
  intros O obj ty W P T eqb is_type issub G A sub m1 t c m2 u n L F S N. rewrite resolve_S. cbn [fmap Registry.checkers].
  rewrite N. change (Registry.checkers (library eqb P G A)) with (checkers (library eqb P G A)).
  rewrite (ask_class P T eqb is_type issub G A sub L). cbn [obind]. rewrite (type_class P T eqb is_type issub G A sub L).
  rewrite super_first; [reflexivity| |now rewrite (l_sub _ _ _ _ _ _ _ _ L), S].
  eapply Forall_impl; [|exact F]. intros e (t' & -> & Q). now rewrite (l_sub _ _ _ _ _ _ _ _ L), Q.
Qed.

Lemma c141_checkers_proof : forall {O obj ty W} (P : Py obj ty W) T eqb is_type issub G (A : Annots O ty) sub es o c n,
  lawful P T eqb is_type issub G A sub -> last_for eqb o es = None -> find eqb o (fmap (library eqb P G A)) = None ->
  (ask (checkers (library eqb P G A)) o = Ok (Use c) ->
   resolve eqb is_type issub (S n) (history eqb (library eqb P G A) es) o = Ok (Made c o)) /\
  (forall fs f gs, appended es = fs ++ f :: gs -> ask (checkers (library eqb P G A)) o = Ok NoMatch ->
   Forall (fun g => g o = Ok NoMatch) fs -> f o = Ok (Use c) ->
   resolve eqb is_type issub (S n) (history eqb (library eqb P G A) es) o = Ok (Made c o)) /\
  (forall t, ask (checkers (library eqb P G A)) (a_class A t) = Ok NoMatch).
Proof.
  intros O obj ty W P T eqb is_type issub G A sub es o c n L H F. pose proof (l_eqb _ _ _ _ _ _ _ _ L) as EQ.
  rewrite resolve_S, (find_history eqb EQ), H, F, checkers_history, ask_app. repeat split.
  - intros ->. reflexivity.
  - intros fs f gs -> -> FF FO. cbn [obind]. rewrite ask_app.
    assert (X : ask fs o = Ok NoMatch) by (induction FF as [|g r Q _ IH]; cbn; auto; now rewrite Q).
    rewrite X. cbn. now rewrite FO.
  - apply (ask_class P T eqb is_type issub G A sub L).
Qed.
