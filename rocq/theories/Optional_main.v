(** Optional_main.v -- proofs of the properties stated in Props_Optional.v: Optional fields (typing_fillers.py:19-88, std_fillers.py:368-372) *)

From Verif Require Import Base Py Filler Spec_Filler Spec_Settle Demo.
From Verif Require Filler_proofs Filler_shape Filler_eqs Filler_main.
Open Scope string_scope.
Open Scope list_scope.

Import Filler_proofs Filler_eqs.
Section Optional.
Context {obj ty W : Type} (P : Py obj ty W).

Lemma made_none : forall d g, checks d -> make_filler P d HNone [] = Ok g -> g = FAnn (AF KNone [] d [] [] true).
Proof.
  intros d g HD H. change (make_filler P d (HAnn HNone []) [] = Ok g) in H.
  destruct (Filler_shape.leaf_make P HNone KNone _ _ _ _ eq_refl H) as (cs & vs & HC & HV & E & _). cbn in HC, HV. injection HC as <-. injection HV as <-.
  rewrite E. destruct HD as [-> | ->]; reflexivity.
Qed.
Lemma none_refuses : forall d g v w, checks d -> make_filler P d HNone [] = Ok g -> v <> o_none P ->
  exists m, fill P g v w = (Raise (mkexc TypeError m), w).
Proof.
  intros d g v w HS HM HV. assert (HN : py_is P v (o_none P) = false).
  { destruct (py_isP P v (o_none P)) as [E|E]; [contradiction|reflexivity]. }
  rewrite (made_none d g HS HM).
  destruct HS as [-> | ->]; cbn; unfold afill, bind; cbn; rewrite HN; cbn; eexists; reflexivity.
Qed.
Lemma none_accepts : forall d g w, checks d -> make_filler P d HNone [] = Ok g -> fill P g (o_none P) w = (Ok (o_none P, PStrict), w).
Proof.
  intros d g w HS HM. assert (HN : py_is P (o_none P) (o_none P) = true) by (destruct (py_isP P (o_none P) (o_none P)) as [_|E]; [reflexivity|destruct (E eq_refl)]).
  rewrite (made_none d g HS HM).
  destruct HS as [-> | ->]; cbn; unfold afill, bind; cbn; rewrite HN; cbn; reflexivity.
Qed.
Lemma pair_fills : forall d (a b : @hint obj ty W) f, make_filler P d (HUnion [a; b]) [] = Ok f -> exists ga gb,
  make_filler P d a [] = Ok ga /\ make_filler P d b [] = Ok gb /\
  forall x w, hollow_hint d no_sub_tokens [] [] a && hollow_hint d no_sub_tokens [] [] b = false ->
    call P f x w = (let* os := attempts [fill P ga; fill P gb] x in lift (verdict P os)) w.
Proof.
  intros d a b f HM. change (make_filler P d (HAnn (HUnion [a; b]) []) [] = Ok f) in HM.
  destruct (Filler_main.c09_union_proof P d [a; b] [] [] f ltac:(discriminate) HM) as (gs & HL & HN & HC).
  destruct (HN 0 a eq_refl) as (g0 & E0 & M0). destruct (HN 1 b eq_refl) as (g1 & E1 & M1).
  destruct gs as [|z [|z' [|]]]; try discriminate. cbn in E0, E1. injection E0 as ->. injection E1 as ->.
  exists g0, g1. split; [exact M0|]. split; [exact M1|]. intros x w HH. rewrite HC. cbn [all_i]. rewrite andb_true_r.
  change (hollow_hint d no_sub_tokens (sub_ops [] 0 ++ [] ++ own_ops []) [] a) with (hollow_hint d no_sub_tokens [] [] a).
  change (hollow_hint d no_sub_tokens (sub_ops [] 1 ++ [] ++ own_ops []) [] b) with (hollow_hint d no_sub_tokens [] [] b).
  rewrite HH. reflexivity.
Qed.
Lemma none_refuses_toks : forall d toks g v w, checks (eff_style d toks) -> has_coercer toks = false -> make_filler P d HNone (own_only toks) = Ok g -> v <> o_none P ->
  exists m, fill P g v w = (Raise (mkexc TypeError m), w).
Proof.
  intros d toks g v w HS HT HM HV. assert (HN : py_is P v (o_none P) = false).
  { destruct (py_isP P v (o_none P)) as [E|E]; [contradiction|reflexivity]. }
  change (make_filler P d (HAnn HNone []) (own_only toks) = Ok g) in HM.
  destruct (Filler_shape.leaf_make P HNone KNone _ _ _ _ eq_refl HM) as (cs & vs & HC & HW & E & _). rewrite Filler_shape.own_ops_own_only, app_nil_r in *.
  rewrite (Filler_shape.no_coercers P _ _ _ HC HT) in E. rewrite E. cbn [fill]. unfold afill. cbn [a_kind a_style a_coercers].
  destruct HS as [-> | ->]; unfold bind; cbn; rewrite HN; cbn; eexists; reflexivity.
Qed.
Lemma pair_fills_toks : forall d toks (a b : @hint obj ty W) f, make_filler P d (HAnn (HUnion [a; b]) toks) [] = Ok f -> exists ga gb,
  make_filler P d a (own_only toks) = Ok ga /\ make_filler P d b (own_only toks) = Ok gb /\
  forall x w, hollow_hint d no_sub_tokens toks [] a && hollow_hint d no_sub_tokens toks [] b = false ->
    call P f x w = (let* os := attempts [fill P ga; fill P gb] x in lift (verdict P os)) w.
Proof.
  intros d toks a b f HM.
  destruct (Filler_main.c09_union_proof P d [a; b] toks [] f ltac:(discriminate) HM) as (gs & HL & HN & HC).
  destruct (HN 0 a eq_refl) as (g0 & E0 & M0). destruct (HN 1 b eq_refl) as (g1 & E1 & M1).
  destruct gs as [|z [|z' [|]]]; try discriminate. cbn in E0, E1. injection E0 as ->. injection E1 as ->.
  change (make_filler P d a (own_only (toks ++ [])) = Ok g0) in M0. change (make_filler P d b (own_only (toks ++ [])) = Ok g1) in M1. rewrite app_nil_r in M0, M1.
  exists g0, g1. split; [exact M0|]. split; [exact M1|]. intros x w HH. rewrite HC. cbn [all_i]. rewrite andb_true_r.
  change (sub_ops [] 0 ++ toks ++ own_ops []) with (toks ++ @nil (@token obj ty W)). change (sub_ops [] 1 ++ toks ++ own_ops []) with (toks ++ @nil (@token obj ty W)).
  rewrite !app_nil_r, HH. reflexivity.
Qed.
Lemma hollow_none : forall d, checks d -> hollow_hint d no_sub_tokens [] [] (@HNone obj ty W) = false.
Proof. intros d [-> | ->]; reflexivity. Qed.
Lemma is_self : forall x, py_is P x x = true.
Proof. intros x. destruct (py_isP P x x); congruence. Qed.
End Optional.

Lemma c167_present_proof : forall {obj ty W} (P : Py obj ty W) d h f g x w, checks d ->
  make_filler P d (HUnion [h; HNone]) [] = Ok f -> make_filler P d h [] = Ok g -> x <> o_none P ->
  (forall y w', call P g x w = (Ok y, w') -> call P f x w = (Ok y, w')) /\
  (forall e w', call P g x w = (Raise e, w') -> is_Exception e = true -> exists m, call P f x w = (Raise (mkexc TypeError m), w')) /\
  (forall e w', call P g x w = (Raise e, w') -> is_Exception e = false -> call P f x w = (Raise e, w')).
Proof.
  intros obj ty W P d h f g x w HD HF HG HX. destruct (pair_fills P d h HNone f HF) as (g' & gn & M1 & M2 & HC).
  assert (g' = g) by congruence. subst g'. specialize (HC x w). rewrite (hollow_none d HD), andb_false_r in HC. specialize (HC eq_refl). rewrite HC. clear HC.
  rewrite call_eq. unfold bind. cbn [attempts]. destruct (fill P g x w) as [[[v k]|e0] w1]; cbn.
  - destruct (none_refuses P d gn x w1 HD M2 HX) as (m & E). unfold bind. rewrite E. cbn.
    split; [intros y w' H; injection H as <- <-; destruct k; reflexivity|]. split; discriminate.
  - destruct (is_Exception e0) eqn:EX.
    + destruct (none_refuses P d gn x w1 HD M2 HX) as (m & E). unfold bind. rewrite E. cbn.
      split; [discriminate|]. split; [intros e w' H _; injection H as <- <-; eexists; reflexivity|intros e w' H N; congruence].
    + split; [discriminate|]. split; [intros e w' H N; congruence|intros e w' H _; exact H].
Qed.

Lemma c167_tokens_proof : forall {obj ty W} (P : Py obj ty W) d h toks f g x w, checks (eff_style d toks) -> has_coercer toks = false ->
  make_filler P d (HAnn (HUnion [h; HNone]) toks) [] = Ok f -> make_filler P d h (own_only toks) = Ok g -> x <> o_none P ->
  (forall y w', call P g x w = (Ok y, w') -> call P f x w = (Ok y, w')) /\
  (forall e w', call P g x w = (Raise e, w') -> is_Exception e = true -> exists m, call P f x w = (Raise (mkexc TypeError m), w')) /\
  (forall e w', call P g x w = (Raise e, w') -> is_Exception e = false -> call P f x w = (Raise e, w')).
Proof.
  intros obj ty W P d h toks f g x w HD HT HF HG HX. destruct (pair_fills_toks P d toks h HNone f HF) as (g' & gn & M1 & M2 & HC).
  assert (g' = g) by congruence. subst g'. specialize (HC x w).
  assert (HN : hollow_hint d no_sub_tokens toks [] (@HNone obj ty W) = false) by (cbn; rewrite app_nil_r; destruct HD as [-> | ->]; reflexivity).
  rewrite HN, andb_false_r in HC. specialize (HC eq_refl). rewrite HC. clear HC.
  rewrite call_eq. unfold bind. cbn [attempts]. destruct (fill P g x w) as [[[v k]|e0] w1]; cbn.
  - destruct (none_refuses_toks P d toks gn x w1 HD HT M2 HX) as (m & E). unfold bind. rewrite E. cbn.
    split; [intros y w' H; injection H as <- <-; destruct k; reflexivity|]. split; discriminate.
  - destruct (is_Exception e0) eqn:EX.
    + destruct (none_refuses_toks P d toks gn x w1 HD HT M2 HX) as (m & E). unfold bind. rewrite E. cbn.
      split; [discriminate|]. split; [intros e w' H _; injection H as <- <-; eexists; reflexivity|intros e w' H N; congruence].
    + split; [discriminate|]. split; [intros e w' H N; congruence|intros e w' H _; exact H].
Qed.

Lemma c167_first_proof : forall {obj ty W} (P : Py obj ty W) d h f g x w, checks d ->
  make_filler P d (HUnion [HNone; h]) [] = Ok f -> make_filler P d h [] = Ok g -> x <> o_none P ->
  call P f x w = call P g x w.
Proof.
  intros obj ty W P d h f g x w HD HF HG HX. destruct (pair_fills P d HNone h f HF) as (gn & g' & M1 & M2 & HC).
  assert (g' = g) by congruence. subst g'. specialize (HC x w). rewrite (hollow_none d HD) in HC. specialize (HC eq_refl). rewrite HC. clear HC.
  rewrite call_eq. unfold bind. cbn [attempts]. destruct (none_refuses P d gn x w HD M1 HX) as (m & E). rewrite E. cbn. unfold bind.
  destruct (fill P g x w) as [[[v k]|e0] w1]; cbn; [destruct k; reflexivity|]. destruct (is_Exception e0) eqn:EX; reflexivity.
Qed.

Lemma c167_none_proof : forall {obj ty W} (P : Py obj ty W) d h f g w, checks d ->
  make_filler P d (HUnion [h; HNone]) [] = Ok f \/ make_filler P d (HUnion [HNone; h]) [] = Ok f -> make_filler P d h [] = Ok g ->
  (forall e w', call P g (o_none P) w = (Raise e, w') -> is_Exception e = true -> call P f (o_none P) w = (Ok (o_none P), w')) /\
  (forall w', call P g (o_none P) w = (Ok (o_none P), w') -> call P f (o_none P) w = (Ok (o_none P), w')) /\
  (forall y w' q, call P g (o_none P) w = (Ok y, w') -> match_kind P d [] [] h (o_none P) = Some q -> q <> PStrict ->
     call P f (o_none P) w = (Ok (o_none P), w')).
Proof.
  intros obj ty W P d h f g w HD HF HG.
  assert (K : forall y k w' q, fill P g (o_none P) w = (Ok (y, k), w') -> match_kind P d [] [] h (o_none P) = Some q -> q <> PStrict -> 0 < tpk_rank k).
  { intros y k w' q E M N. pose proof (proj1 (Filler_main.c08_match_kinds_proof P) d h [] g _ _ _ _ _ q HG E M) as ->. destruct q; cbn; try lia. congruence. }
  destruct HF as [HF|HF].
  - destruct (pair_fills P d h HNone f HF) as (g' & gn & M1 & M2 & HC).
    assert (g' = g) by congruence. subst g'. specialize (HC (o_none P) w). rewrite (hollow_none d HD), andb_false_r in HC. specialize (HC eq_refl). rewrite HC. clear HC.
    rewrite call_eq. unfold bind. cbn [attempts]. destruct (fill P g (o_none P) w) as [[[v k]|e0] w1] eqn:EF; cbn.
    + unfold bind. rewrite (none_accepts P d gn w1 HD M2). cbn [ret]. split; [discriminate|]. split.
      * intros w' H. injection H as -> <-. unfold lift, verdict. destruct k; cbn; rewrite ?is_self; reflexivity.
      * intros y w' q H HM HQ. injection H as -> <-. pose proof (K _ _ _ q eq_refl HM HQ) as L. unfold lift, verdict. destruct k; cbn in L |- *; try lia; reflexivity.
    + destruct (is_Exception e0) eqn:EX.
      * unfold bind. rewrite (none_accepts P d gn w1 HD M2). cbn. split; [intros e w' H _; injection H as <- <-; reflexivity|]. split; discriminate.
      * split; [intros e w' H N; congruence|]. split; discriminate.
  - destruct (pair_fills P d HNone h f HF) as (gn & g' & M1 & M2 & HC).
    assert (g' = g) by congruence. subst g'. specialize (HC (o_none P) w). rewrite (hollow_none d HD) in HC. specialize (HC eq_refl). rewrite HC. clear HC.
    rewrite call_eq. unfold bind. cbn [attempts]. rewrite (none_accepts P d gn w HD M1). cbn. unfold bind. destruct (fill P g (o_none P) w) as [[[v k]|e0] w1] eqn:EF; cbn.
    + split; [discriminate|]. split.
      * intros w' H. injection H as -> <-. unfold lift, verdict. destruct k; cbn; rewrite ?is_self; reflexivity.
      * intros y w' q H HM HQ. injection H as -> <-. pose proof (K _ _ _ q eq_refl HM HQ) as L. unfold lift, verdict. destruct k; cbn in L |- *; try lia; reflexivity.
    + destruct (is_Exception e0) eqn:EX.
      * cbn. split; [intros e w' H _; injection H as <- <-; reflexivity|]. split; discriminate.
      * split; [intros e w' H N; congruence|]. split; discriminate.
Qed.

Lemma c167_asserted_proof : forall {obj ty W} (P : Py obj ty W) d h v c f g w e1 w1 e2 w2, checks d ->
  make_filler P d (HAnn (HUnion [h; HNone]) [TValid (VGlobal v)]) [] = Ok f ->
  v (OTy (t_none P)) = Ok c -> c (o_none P) w1 = (Raise e2, w2) -> is_Exception e2 = true ->
  make_filler P d h [(None, TValid (VGlobal v))] = Ok g -> call P g (o_none P) w = (Raise e1, w1) -> is_Exception e1 = true ->
  call P f (o_none P) w = (Raise e2, w2).
Proof.
  intros obj ty W P d h v c f g w e1 w1 e2 w2 HD HF HV HC HE HG HR HE1.
  destruct (Filler_main.c09_union_proof P d [h; HNone] _ [] f ltac:(discriminate) HF) as (gs & HL & HN & CF).
  destruct (HN 0 h eq_refl) as (g0 & E0 & M0). destruct (HN 1 HNone eq_refl) as (g1 & E1 & M1).
  destruct gs as [|z [|z' [|]]]; try discriminate. cbn in E0, E1. injection E0 as ->. injection E1 as ->.
  change (make_filler P d h [(None, TValid (VGlobal v))] = Ok g0) in M0. assert (g0 = g) by congruence. subst g0.
  change (make_filler P d (HAnn HNone []) [(None, TValid (VGlobal v))] = Ok g1) in M1.
  destruct (Filler_shape.leaf_make P HNone KNone _ _ _ _ eq_refl M1) as (cs & vs & C & V & E & _). cbn in C, V. injection C as <-. rewrite HV in V. cbn in V. injection V as <-.
  rewrite CF. replace (all_i _ 0 [h; HNone]) with false.
  2:{ cbn. destruct HD as [-> | ->]; cbn; rewrite andb_false_r; reflexivity. }
  rewrite call_eq in HR. unfold bind in HR |- *. cbn [map attempts]. destruct (fill P g (o_none P) w) as [[[v0 k0]|e0] w0]; [discriminate|]. injection HR as -> ->.
  rewrite HE1. assert (FN : fill P g1 (o_none P) w1 = (Raise e2, w2)).
  { rewrite E. cbn [fill]. unfold afill. cbn. destruct HD as [-> | ->]; cbn; unfold bind; cbn; rewrite is_self; cbn; rewrite HC; reflexivity. }
  unfold bind. rewrite FN, HE. reflexivity.
Qed.
