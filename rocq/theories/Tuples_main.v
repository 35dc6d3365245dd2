(** Tuples_main.v -- proofs of the properties stated in Props_Tuples.v: Tuple[T, T, T] and Tuple[T, ...] (typing_fillers.py:159-247) *)

From Verif Require Import Base Py Filler Spec_Filler Demo.
From Verif Require Filler_main Filler_eqs.
Open Scope string_scope.
Open Scope list_scope.

Section Tuples.
Context {obj ty W : Type} (P : Py obj ty W).
Lemma all_same : forall (p : @hint obj ty W -> bool) h n i, all_i (fun _ h => p h) i (repeat h (S n)) = p h.
Proof.
  intros p h n. induction n as [|n IH]; intros i; cbn; [apply andb_true_r|]. cbn in IH. rewrite IH. destruct (p h); reflexivity.
Qed.
Lemma zip_same : forall (f : obj -> M W obj) l w, zipM (repeat f (List.length l)) l w = mapM f l w.
Proof.
  intros f l. induction l as [|a r IH]; intros w; [reflexivity|]. cbn. unfold bind. destruct (f a w) as [[b|e] w1]; [|reflexivity]. rewrite IH. reflexivity.
Qed.
Lemma nths_same : forall {A} (l : list A) a n, List.length l = n -> (forall i, i < n -> nth_error l i = Some a) -> l = repeat a n.
Proof.
  intros A l a. induction l as [|b r IH]; intros n HL H; subst n; [reflexivity|]. cbn. f_equal; [specialize (H 0 ltac:(cbn; lia)); cbn in H; congruence|].
  apply IH; [reflexivity|]. intros i HI. exact (H (S i) ltac:(cbn; lia)).
Qed.
Lemma nth_repeat : forall {A} (a : A) n i, i < n -> nth_error (repeat a n) i = Some a.
Proof. intros A a n. induction n as [|n IH]; intros i H; [lia|]. destruct i; cbn; [reflexivity|apply IH; lia]. Qed.
End Tuples.

Lemma c168_tuples_proof : forall {obj ty W} (P : Py obj ty W) d h toks n f g f0, plain_class P (t_tuple P) ->
  make_filler P d (HAnn (HTupleN (repeat h (S n))) toks) [] = Ok f ->
  make_filler P d (HAnn (HTupleV h) toks) [] = Ok g ->
  make_filler P d (HAnn (HTy (t_tuple P)) toks) [] = Ok f0 -> forall x w,
  (forall e w', call P f0 x w = (Raise e, w') -> call P f x w = (Raise e, w') /\ call P g x w = (Raise e, w')) /\
  (forall z w' l, call P f0 x w = (Ok z, w') -> elems P z = Some l -> List.length l = S n -> call P f x w = call P g x w) /\
  (forall z w' l, call P f0 x w = (Ok z, w') -> elems P z = Some l -> List.length l <> S n -> eff_style d toks <> SHollow ->
     exists m, call P f x w = (Raise (mkexc ValueError m), w')).
Proof.
  intros obj ty W P d h toks n f g f0 HP HF HG H0 x w.
  destruct (Filler_main.c11_fixed_tuple_proof P d _ toks [] f HP HF) as (f1 & gs & M1 & HL & HN & CF).
  destruct (Filler_main.c10_elements_tuple_proof P d h toks [] g HP HG) as (f2 & g1 & M2 & MG & CG).
  change (make_filler P d (HAnn (HTy (t_tuple P)) toks) [] = Ok f1) in M1. change (make_filler P d (HAnn (HTy (t_tuple P)) toks) [] = Ok f2) in M2.
  assert (f1 = f0) by congruence. assert (f2 = f0) by congruence. subst f1 f2.
  rewrite repeat_length in HL. rewrite repeat_length in CF.
  assert (gs = repeat g1 (S n)) as ->.
  { apply nths_same; [exact HL|]. intros i HI. destruct (HN i h (nth_repeat h (S n) i HI)) as (g2 & E & M). rewrite E. f_equal.
    change (make_filler P d h [] = Ok g2) in M. change (make_filler P d h [] = Ok g1) in MG. congruence. }
  rewrite (CF x w), (CG x w). change (@own_ops obj ty W []) with (@nil (@token obj ty W)). cbn [app].
  change (all_i (fun n0 h0 => hollow_hint d no_sub_tokens (sub_ops [] n0) [] h0) 0 (repeat h (S n))) with (all_i (fun _ h0 => hollow_hint d no_sub_tokens [] [] h0) 0 (repeat h (S n))).
  rewrite all_same. change (hollow_hint d no_sub_tokens (sub_ops [] 0) [] h) with (hollow_hint d no_sub_tokens [] [] h).
  unfold bind. split; [|split].
  - intros e w' E. rewrite E. split; reflexivity.
  - intros z w' l E EL LL. rewrite E. destruct (hollow_hint d no_sub_tokens [] [] h).
    + destruct (style_eqb (eff_style d toks) SHollow); [reflexivity|]. unfold check_length. rewrite EL, LL, Nat.eqb_refl. reflexivity.
    + unfold fill_positions, fill_elements. rewrite EL, map_length, repeat_length, LL, Nat.eqb_refl. unfold bind.
      replace (map (call P) (repeat g1 (S n))) with (repeat (call P g1) (List.length l)) by (rewrite LL; clear; induction (S n) as [|m IH]; cbn; [reflexivity|]; rewrite IH; reflexivity).
      rewrite zip_same. reflexivity.
  - intros z w' l E EL LL HS. rewrite E. assert (NE : Nat.eqb (List.length l) (S n) = false) by (apply Nat.eqb_neq; exact LL).
    destruct (hollow_hint d no_sub_tokens [] [] h).
    + replace (style_eqb (eff_style d toks) SHollow) with false by (destruct (eff_style d toks); try reflexivity; congruence).
      unfold check_length. rewrite EL, NE. eexists. reflexivity.
    + unfold fill_positions. rewrite EL, map_length, repeat_length, NE. eexists. reflexivity.
Qed.

Lemma c168_variable_proof : forall {obj ty W} (P : Py obj ty W) d h toks n f g, plain_class P (t_tuple P) -> eff_style d toks <> SHollow ->
  make_filler P d (HAnn (HTupleN (repeat h (S n))) toks) [] = Ok f ->
  make_filler P d (HAnn (HTupleV h) toks) [] = Ok g -> forall x w y w',
  call P f x w = (Ok y, w') -> call P g x w = (Ok y, w').
Proof.
  intros obj ty W P d h toks n f g HP HS HF HG x w y w' H.
  destruct (Filler_main.c11_fixed_tuple_proof P d _ toks [] f HP HF) as (f0 & gs & M1 & HL & HN & CF). rewrite repeat_length in CF.
  change (make_filler P d (HAnn (HTy (t_tuple P)) toks) [] = Ok f0) in M1.
  destruct (c168_tuples_proof P d h toks n f g f0 HP HF HG M1 x w) as (R & S1 & S2).
  destruct (call P f0 x w) as [[z|e] w1] eqn:E; [|destruct (R e w1 eq_refl); congruence].
  destruct (elems P z) as [l|] eqn:EL.
  - destruct (Nat.eq_dec (List.length l) (S n)) as [LL|LL]; [rewrite <- (S1 z w1 l eq_refl EL LL); exact H|].
    destruct (S2 z w1 l eq_refl EL LL HS) as (m & E2). congruence.
  - exfalso. rewrite (CF x w) in H. unfold bind in H. rewrite E in H. change (@own_ops obj ty W []) with (@nil (@token obj ty W)) in H. cbn [app] in H.
    destruct (all_i _ 0 _); [|unfold fill_positions in H; rewrite EL in H; discriminate].
    replace (style_eqb (eff_style d toks) SHollow) with false in H by (destruct (eff_style d toks); try reflexivity; congruence).
    unfold check_length in H. rewrite EL in H. discriminate.
Qed.
