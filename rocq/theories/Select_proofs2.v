(** Select_proofs2.v -- consequences of the edit specification: frame,
    overwriting, renaming, commutation of independent edits, merge algebra. *)
From Verif Require Import Base Dict_proofs Select Spec_Select Select_proofs.

Section Edits.
Context {A : Type}.
Implicit Types (l : list (edit A)) (m : fmap A) (e : edit A).

(** keys an edit may take away / may write *)
Definition takes e (k : string) : Prop :=
  match e with
  | Remove k' | MaybeRemove k' => k = k'
  | Rename o _ | MaybeRename o _ => k = o
  | Add _ _ | MaybeAdd _ _ => False
  end.
Definition writes e (k : string) : Prop :=
  match e with
  | Remove _ | MaybeRemove _ => False
  | Rename _ n | MaybeRename _ n => k = n
  | Add k' _ | MaybeAdd k' _ => k = k'
  end.
Definition touches e k : Prop := takes e k \/ writes e k.

Lemma touches_dec e k : touches e k \/ ~ touches e k.
Proof.
  unfold touches, takes, writes.
  destruct e as [x|x|x y|x y|x v|x v]; destruct (string_dec k x); try destruct (string_dec k y); tauto.
Qed.

Lemma edits_app l1 l2 m :
  edits (l1 ++ l2) m = match edits l1 m with Done m' => edits l2 m' | v => v end.
Proof.
  revert m. induction l1 as [|e r IH]; intros m; simpl; auto.
  destruct (edit_step e m); auto.
Qed.

Ltac crush_step :=
  simpl; intros;
  repeat match goal with
         | H : context [match ?x with Some _ => _ | None => _ end] |- _ => destruct x eqn:?
         | |- context [match ?x with Some _ => _ | None => _ end] => destruct x eqn:?
         end; try discriminate;
  repeat match goal with H : Done _ = Done _ |- _ => injection H as <- end;
  unfold fput in *;
  repeat match goal with
         | H : context [String.eqb ?x ?y] |- _ => destruct (String.eqb_spec x y); subst
         | |- context [String.eqb ?x ?y] => destruct (String.eqb_spec x y); subst
         end; try congruence; try tauto; auto.

Lemma step_frame e m m' k : edit_step e m = Done m' -> ~ touches e k -> m' k = m k.
Proof. unfold touches. destruct e; crush_step. Qed.

Lemma step_keeps e m m' k v : edit_step e m = Done m' -> ~ takes e k -> m k = Some v -> m' k = Some v.
Proof. destruct e; crush_step. Qed.

Lemma step_nowrite e m m' k : edit_step e m = Done m' -> ~ writes e k -> m' k = m k \/ m' k = None.
Proof. destruct e; crush_step. Qed.

Lemma edits_frame l : forall m m' k, edits l m = Done m' -> (forall e, In e l -> ~ touches e k) -> m' k = m k.
Proof.
  induction l as [|e r IH]; simpl; intros m m' k H Hn.
  - now injection H as <-.
  - destruct (edit_step e m) eqn:E; try discriminate.
    rewrite (IH _ _ _ H); auto. eapply step_frame; eauto.
Qed.

Lemma edits_keeps l : forall m m' k v, edits l m = Done m' -> (forall e, In e l -> ~ takes e k) ->
  m k = Some v -> m' k = Some v.
Proof.
  induction l as [|e r IH]; simpl; intros m m' k v H Hn Hm.
  - now injection H as <-.
  - destruct (edit_step e m) eqn:E; try discriminate.
    eapply IH; eauto. eapply step_keeps; eauto.
Qed.

Lemma edits_nowrite l : forall m m' k, edits l m = Done m' -> (forall e, In e l -> ~ writes e k) ->
  m' k = m k \/ m' k = None.
Proof.
  induction l as [|e r IH]; simpl; intros m m' k H Hn.
  - injection H as <-. auto.
  - destruct (edit_step e m) eqn:E; try discriminate.
    destruct (IH _ _ k H) as [H1|H1]; auto.
    rewrite H1. eapply step_nowrite; eauto.
Qed.

(** after an edit that takes k away and writes it nowhere, k is absent *)
Lemma step_taken e m m' k : edit_step e m = Done m' -> takes e k -> ~ writes e k -> m' k = None.
Proof. destruct e; crush_step. Qed.

Lemma edits_taken l m m' k e : edits l m = Done m' -> In e l -> takes e k ->
  (forall e', In e' l -> ~ writes e' k) -> m' k = None.
Proof.
  intros H Hi Ht Hn. apply in_split in Hi as (l1 & l2 & ->).
  rewrite edits_app in H. destruct (edits l1 m) eqn:E1; try discriminate.
  simpl in H. destruct (edit_step e m0) eqn:E2; try discriminate.
  assert (m1 k = None) as Hk.
  { eapply step_taken; eauto. apply Hn. apply in_elt. }
  destruct (edits_nowrite _ _ _ k H) as [->|]; auto.
  intros e' He'. apply Hn. apply in_or_app. right. now right.
Qed.

(** ** independent edits commute *)

Definition indep e1 e2 : Prop := forall k, touches e1 k -> touches e2 k -> False.

Definition same_verdict (v v' : verdict A) : Prop :=
  match v, v' with Done x, Done y => forall k, x k = y k | Done _, _ => False | _, Done _ => False | _, _ => True end.

Lemma same_verdict_refl v : same_verdict v v.
Proof. destruct v; simpl; auto. Qed.
Lemma same_verdict_trans v1 v2 v3 : same_verdict v1 v2 -> same_verdict v2 v3 -> same_verdict v1 v3.
Proof. destruct v1, v2, v3; simpl; auto; try tauto. intros H1 H2 k. now rewrite H1. Qed.
Lemma same_verdict_sym v1 v2 : same_verdict v1 v2 -> same_verdict v2 v1.
Proof. destruct v1, v2; simpl; auto; intros H k; symmetry; apply H. Qed.

Lemma edits_ext_same l m m' : (forall k, m k = m' k) -> same_verdict (edits l m) (edits l m').
Proof.
  intros H. pose proof (edits_ext l m m' H) as E. unfold same_verdict.
  destruct (edits l m), (edits l m'); tauto.
Qed.

Lemma edits_same_app l1 l1' l2 m : same_verdict (edits l1 m) (edits l1' m) ->
  same_verdict (edits (l1 ++ l2) m) (edits (l1' ++ l2) m).
Proof.
  rewrite !edits_app. unfold same_verdict at 1.
  destruct (edits l1 m), (edits l1' m); try tauto; simpl; auto.
  now apply edits_ext_same.
Qed.

Lemma step_indep_read e1 e2 m m1 : indep e1 e2 -> edit_step e1 m = Done m1 ->
  (forall k, touches e2 k -> m1 k = m k).
Proof. intros Hi H k Hk. eapply step_frame; eauto. Qed.

(** the verdict of an edit depends only on the keys it touches *)
Lemma step_local e m m1 : (forall k, touches e k -> m1 k = m k) ->
  match edit_step e m, edit_step e m1 with
  | Done x, Done y => forall k, touches e k -> x k = y k
  | Done _, _ | _, Done _ => False
  | _, _ => True
  end.
Proof.
  intros H.
  destruct e; simpl;
    repeat match goal with
    | |- context [m1 ?x] => rewrite (H x) by (unfold touches; simpl; auto)
    end;
    repeat match goal with |- context [match m ?x with Some _ => _ | None => _ end] => destruct (m x) eqn:? end; auto;
    intros k' Hk'; rewrite ?(H k' Hk'); unfold fput; repeat destruct (String.eqb _ _); auto;
    try (now rewrite (H k' Hk')).
Qed.

Lemma step_commute e1 e2 m : indep e1 e2 -> same_verdict (edits [e1; e2] m) (edits [e2; e1] m).
Proof.
  intros Hi.
  assert (Hi' : indep e2 e1) by (intros k a b; exact (Hi k b a)).
  simpl. destruct (edit_step e1 m) as [m1|k1|k1] eqn:E1; destruct (edit_step e2 m) as [m2|k2|k2] eqn:E2.
  - pose proof (step_local e2 m m1 (step_indep_read _ _ _ _ Hi E1)) as L2.
    pose proof (step_local e1 m m2 (step_indep_read _ _ _ _ Hi' E2)) as L1.
    rewrite E2 in L2. rewrite E1 in L1.
    destruct (edit_step e2 m1) as [m12| |] eqn:E12; try tauto.
    destruct (edit_step e1 m2) as [m21| |] eqn:E21; try tauto.
    simpl. intros k.
    pose proof (touches_dec e1 k) as D1. pose proof (touches_dec e2 k) as D2.
    destruct D1 as [T1|T1].
    + assert (~ touches e2 k) by (intros T2; exact (Hi k T1 T2)).
      rewrite (step_frame _ _ _ k E12) by auto. auto.
    + destruct D2 as [T2|T2].
      * rewrite (step_frame _ _ _ k E21) by auto. symmetry. auto.
      * rewrite (step_frame _ _ _ k E12), (step_frame _ _ _ k E21), (step_frame _ _ _ k E1), (step_frame _ _ _ k E2); auto.
  - pose proof (step_local e2 m m1 (step_indep_read _ _ _ _ Hi E1)) as L2.
    rewrite E2 in L2. destruct (edit_step e2 m1); try tauto; simpl; auto.
  - pose proof (step_local e2 m m1 (step_indep_read _ _ _ _ Hi E1)) as L2.
    rewrite E2 in L2. destruct (edit_step e2 m1); try tauto; simpl; auto.
  - pose proof (step_local e1 m m2 (step_indep_read _ _ _ _ Hi' E2)) as L1.
    rewrite E1 in L1. destruct (edit_step e1 m2); try tauto; simpl; auto.
  - simpl; auto.
  - simpl; auto.
  - pose proof (step_local e1 m m2 (step_indep_read _ _ _ _ Hi' E2)) as L1.
    rewrite E1 in L1. destruct (edit_step e1 m2); try tauto; simpl; auto.
  - simpl; auto.
  - simpl; auto.
Qed.

Lemma edits_swap e l2 : forall m, (forall e2, In e2 l2 -> indep e e2) ->
  same_verdict (edits (e :: l2) m) (edits (l2 ++ [e]) m).
Proof.
  induction l2 as [|x r IH]; intros m H.
  - apply same_verdict_refl.
  - apply same_verdict_trans with (edits ([x; e] ++ r) m).
    + change (e :: x :: r) with ([e; x] ++ r). apply edits_same_app. apply step_commute. apply H. now left.
    + simpl app. change (edits (x :: e :: r) m) with
        (match edit_step x m with Done m' => edits (e :: r) m' | v => v end).
      change (edits (x :: r ++ [e]) m) with
        (match edit_step x m with Done m' => edits (r ++ [e]) m' | v => v end).
      destruct (edit_step x m); simpl; auto. apply (IH m0). intros e2 He2. apply H. now right.
Qed.

(** moving a block of independent edits across another *)
Lemma edits_swap_block l1 l2 m : (forall e1 e2, In e1 l1 -> In e2 l2 -> indep e1 e2) ->
  same_verdict (edits (l1 ++ l2) m) (edits (l2 ++ l1) m).
Proof.
  revert m l2. induction l1 as [|e r IH]; intros m l2 H.
  - rewrite app_nil_r. apply same_verdict_refl.
  - simpl app. apply same_verdict_trans with (edits (e :: l2 ++ r) m).
    + simpl. destruct (edit_step e m); simpl; auto. apply IH. intros; apply H; auto. now right.
    + change (e :: l2 ++ r) with ((e :: l2) ++ r).
      replace (l2 ++ e :: r) with ((l2 ++ [e]) ++ r) by now rewrite <- app_assoc.
      apply edits_same_app. apply edits_swap. intros; apply H; auto. now left.
Qed.

Lemma edits_same_prefix l0 l1 l2 m : (forall m, same_verdict (edits l1 m) (edits l2 m)) ->
  same_verdict (edits (l0 ++ l1) m) (edits (l0 ++ l2) m).
Proof. intros H. rewrite !edits_app. destruct (edits l0 m); simpl; auto. Qed.

End Edits.

Section Merge.
Context {A : Type}.
Implicit Types (s t u : sel A) (d : dict A).

(** the six lists of a Select *)
Definition lists s :=
  (elements (s_rem s), elements (s_mrem s), elements (s_ren s), elements (s_mren s),
   elements (s_add s), elements (s_madd s)).

Lemma edits_of_lists s t : lists s = lists t -> edits_of s = edits_of t.
Proof. unfold lists, edits_of. intros H. injection H as -> -> -> -> -> ->. reflexivity. Qed.

Lemma lists_set_bool s b : lists (set_bool s b) = lists s.
Proof. now destruct s. Qed.

(** all Selects a program can get from re-iterable arguments: built, merged and
    used any number of times *)
Inductive reachable : sel A -> Prop :=
| reach_init add madd rem mrem ren mren :
    stable (sel_init add madd rem mrem ren mren) -> reachable (sel_init add madd rem mrem ren mren)
| reach_merge s t : reachable s -> reachable t -> reachable (fst (sel_merge2 s t))
| reach_truth s : reachable s -> reachable (snd (sel_truth s))
| reach_call s d : reachable s -> dict_ok d -> reachable (snd (sel_call s d)).

Definition nonempty s : bool := match edits_of s with [] => false | _ => true end.

Lemma stable_lists_nil s : edits_of s = [] -> lists s = ([], [], [], [], [], []).
Proof.
  unfold edits_of, lists. intros H.
  repeat (apply app_eq_nil in H as [?H H]).
  repeat match goal with H : map _ _ = [] |- _ => apply map_eq_nil in H; rewrite H end. reflexivity.
Qed.

Lemma merge2_stable s t : stable s -> bool_ok s -> stable t -> bool_ok t ->
  let r := fst (sel_merge2 s t) in
  stable r /\ bool_ok r /\
  lists r = (elements (s_rem s) ++ elements (s_rem t), elements (s_mrem s) ++ elements (s_mrem t),
             elements (s_ren s) ++ elements (s_ren t), elements (s_mren s) ++ elements (s_mren t),
             elements (s_add s) ++ elements (s_add t), elements (s_madd s) ++ elements (s_madd t)).
Proof.
  intros Hs Bs Ht Bt. unfold sel_merge2.
  rewrite (sel_truth_stable s Hs Bs). rewrite (sel_truth_stable t Ht Bt).
  destruct (edits_of s) eqn:Es.
  - cbn [negb fst]. split; [|split]; auto.
    pose proof (stable_lists_nil _ Es) as L. unfold lists in L. injection L as -> -> -> -> -> ->. reflexivity.
  - cbn [negb]. destruct (edits_of t) eqn:Et.
    + cbn [negb fst]. split; [now apply stable_set_bool|]. split.
      * destruct s. unfold bool_ok. simpl. unfold edits_of in Es |- *. simpl in Es |- *. now rewrite Es.
      * rewrite lists_set_bool.
        pose proof (stable_lists_nil _ Et) as L. unfold lists in L. injection L as -> -> -> -> -> ->.
        rewrite !app_nil_r. reflexivity.
    + cbn [negb fst]. split; [|split].
      * repeat split; reflexivity.
      * unfold bool_ok. reflexivity.
      * unfold lists. destruct s, t. reflexivity.
Qed.

Lemma reachable_ok s : reachable s -> stable s /\ bool_ok s.
Proof.
  induction 1 as [add madd rem mrem ren mren Hs | s t _ [Ss Bs] _ [St Bt] | s _ [Ss Bs] | s d _ [Ss Bs] Hd].
  - split; auto. unfold bool_ok, sel_init. reflexivity.
  - pose proof (merge2_stable s t Ss Bs St Bt) as (H1 & H2 & _). auto.
  - rewrite (sel_truth_stable s Ss Bs). simpl. split; [now apply stable_set_bool|].
    unfold bool_ok. rewrite edits_of_set_bool. now destruct s.
  - pose proof (sel_call_agrees s d Ss Bs Hd) as H. destruct (sel_call s d) as [[o d'] s'].
    destruct H as [_ ->]. simpl. split; [now apply stable_set_bool|].
    unfold bool_ok. rewrite edits_of_set_bool. now destruct s.
Qed.

(** the outcome of applying a Select depends only on its six lists *)
Lemma sel_call_lists s t d : stable s -> bool_ok s -> stable t -> bool_ok t -> lists s = lists t ->
  fst (sel_call s d) = fst (sel_call t d).
Proof.
  intros Ss Bs St Bt H. pose proof (edits_of_lists _ _ H) as He.
  unfold sel_call. rewrite (sel_truth_stable s Ss Bs), (sel_truth_stable t St Bt), He.
  destruct (edits_of t); [reflexivity|]. cbn [negb].
  destruct s as [a ma r mr n mn b], t as [a' ma' r' mr' n' mn' b']. unfold lists in H. simpl in H.
  cbn [set_bool]. injection H as -> -> -> -> -> ->.
  repeat match goal with
         | |- fst (match ?x with _ => _ end) = _ => destruct x as [[[?|?] ?] ?]; [|reflexivity]
         end. reflexivity.
Qed.

Lemma sel_apply_lists s t d : reachable s -> reachable t -> lists s = lists t -> sel_apply s d = sel_apply t d.
Proof.
  intros Hs Ht H. apply reachable_ok in Hs as [? ?]. apply reachable_ok in Ht as [? ?].
  pose proof (sel_call_lists s t d) as E. unfold sel_apply, sel_call_mapping.
  destruct (sel_call s d) as [[o d1] s1], (sel_call t d) as [[o' d1'] s1']. simpl in E.
  specialize (E ltac:(assumption) ltac:(assumption) ltac:(assumption) ltac:(assumption) H).
  injection E as -> ->. reflexivity.
Qed.

(** specification of sel_apply in terms of edits *)
Lemma sel_apply_spec s d : reachable s -> dict_ok d ->
  match edits (edits_of s) (abs d) with
  | Done m => exists d', sel_apply s d = Ok d' /\ dict_ok d' /\ forall k, dget k d' = m k
  | Missing k => sel_apply s d = Raise (mkexc KeyError k)
  | Occupied k => sel_apply s d = Raise (clash k)
  end.
Proof.
  intros Hs Hd. apply reachable_ok in Hs as [Ss Bs].
  pose proof (sel_call_agrees s d Ss Bs Hd) as H. unfold sel_apply, sel_call_mapping.
  destruct (sel_call s d) as [[o d'] s']. destruct H as [H _].
  destruct (edits (edits_of s) (abs d)); simpl in *.
  - destruct H as (-> & H1 & H2). eauto.
  - now rewrite H.
  - now rewrite H.
Qed.

Lemma sel_apply_ok_inv s d d' : reachable s -> dict_ok d -> sel_apply s d = Ok d' ->
  exists m, edits (edits_of s) (abs d) = Done m /\ dict_ok d' /\ forall k, dget k d' = m k.
Proof.
  intros Hs Hd H. pose proof (sel_apply_spec s d Hs Hd) as S.
  destruct (edits (edits_of s) (abs d)) as [m| |]; rewrite H in S; try discriminate.
  destruct S as (d2 & E & S1 & S2). injection E as <-. eauto.
Qed.

End Merge.
