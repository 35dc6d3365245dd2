(** Live_main.v -- proofs of the properties stated in Props_Live.v: C127: what a Select does after it was made *)

From Verif Require Import Base Dict_proofs Select Select_proofs Select_proofs2 Live.
Open Scope string_scope.
Open Scope list_scope.

(** not a list of the program: a mapping, a tuple, or one name *)
Definition copied {X} (g : given X) : bool := match g with GivenList _ => false | _ => true end.
(** the elements of an argument when they are read while the lists are as in [h] *)
Definition contents {X} (at_ : nat -> list X) (g : given X) : list X :=
  match g with GivenTuple l => l | GivenStr s => [s] | GivenList n => at_ n end.
(** a Select that is made while the lists are as in [h], and used at once *)
Definition made_now {A} (h : lists_now A) a ma r mr n mn : sel A :=
  sel_init (PIter (Reiter (contents (pairs_at h) a))) (PIter (Reiter (contents (pairs_at h) ma)))
           (NIter (Reiter (contents (names_at h) r))) (NIter (Reiter (contents (names_at h) mr)))
           (PIter (Reiter (contents (renames_at h) n))) (PIter (Reiter (contents (renames_at h) mn))).
(** no step of the history asks the Select for its truth, applies it or merges it *)
Definition leaves_alone {A} (i : nat) (x : step A) : bool :=
  match x with
  | Change _ | New _ _ _ _ _ _ => true
  | Ask j | Use j _ => negb (Nat.eqb i j)
  | Merge j k => negb (Nat.eqb i j) && negb (Nat.eqb i k)
  end.

Section LiveProofs.
Context {A : Type}.
Implicit Types (h : lists_now A) (s : live A) (d : dict A) (l : list (live A)) (st : state A).

Lemma now_stable h s : stable (now h s).
Proof. repeat split. Qed.

Definition alive h s : bool := match l_bool s with Some b => b | None => nonempty (now h s) end.

Lemma truth_now h s : sel_truth (now h s) = (alive h s, now h (with_bool s (Some (alive h s)))).
Proof.
  unfold alive. destruct (l_bool s) as [b|] eqn:E.
  - unfold sel_truth, now. simpl. rewrite E. reflexivity.
  - rewrite (sel_truth_stable (now h s) (now_stable h s)).
    + unfold nonempty, now. simpl. reflexivity.
    + unfold bool_ok, now. simpl. now rewrite E.
Qed.

Lemma call_bool h s d : s_bool (snd (sel_call (now h s) d)) = Some (alive h s).
Proof.
  unfold sel_call. rewrite truth_now. destruct (alive h s) eqn:E; cbn [negb]; [|reflexivity].
  unfold now, with_bool; cbn [l_add l_madd l_rem l_mrem l_ren l_mren l_bool].
  repeat match goal with
         | |- s_bool (snd (match ?x with _ => _ end)) = _ => destruct x as [[[?|?] ?] ?]; [|reflexivity]
         end. reflexivity.
Qed.

Lemma merge_bools h s t (r s' t' : sel A) : sel_merge2 (now h s) (now h t) = (r, (s', t')) ->
  s_bool s' = Some (alive h s) /\
  (s_bool t' = l_bool t \/ s_bool t' = Some (alive h t)) /\
  (alive h s = true -> alive h t = true ->
    s_bool t' = Some (alive h t) /\
    r = Sel (Reiter (elements (s_add (now h s)) ++ elements (s_add (now h t))))
            (Reiter (elements (s_madd (now h s)) ++ elements (s_madd (now h t))))
            (Reiter (elements (s_rem (now h s)) ++ elements (s_rem (now h t))))
            (Reiter (elements (s_mrem (now h s)) ++ elements (s_mrem (now h t))))
            (Reiter (elements (s_ren (now h s)) ++ elements (s_ren (now h t))))
            (Reiter (elements (s_mren (now h s)) ++ elements (s_mren (now h t)))) None).
Proof.
  unfold sel_merge2. rewrite !truth_now.
  destruct (alive h s) eqn:E; cbn [negb].
  - destruct (alive h t) eqn:F; cbn [negb]; intros H; injection H as <- <- <-; simpl; auto.
    split; [reflexivity|]. split; [now right|]. discriminate.
  - intros H; injection H as <- <- <-; simpl. split; [reflexivity|]. split; [now left|]. discriminate.
Qed.

Lemma nth_set_nth l i j s : nth_error (set_nth i s l) j =
  if Nat.eqb i j then match nth_error l j with Some _ => Some s | None => None end else nth_error l j.
Proof.
  revert i j. induction l as [|x l IH]; intros [|i] [|j]; simpl; auto; try (now destruct (Nat.eqb _ _)).
Qed.

Lemma nth_asked l i j b : nth_error (asked i b l) j =
  if Nat.eqb i j then match nth_error l j with Some s => Some (with_bool s b) | None => None end else nth_error l j.
Proof.
  unfold asked. destruct (nth_error l i) eqn:E.
  - rewrite nth_set_nth. destruct (Nat.eqb i j) eqn:F; auto. apply Nat.eqb_eq in F. subst. now rewrite E.
  - destruct (Nat.eqb i j) eqn:F; auto. apply Nat.eqb_eq in F. subst. now rewrite E.
Qed.

Lemma length_set_nth l i s : List.length (set_nth i s l) = List.length l.
Proof. revert i. induction l; intros [|i]; simpl; auto. Qed.
Lemma length_asked l i b : List.length (asked i b l) = List.length l.
Proof. unfold asked. destruct (nth_error l i); auto. apply length_set_nth. Qed.

(** what a step does to one Select: only the cached truth changes, and if so to the truth it has now *)
Lemma step_one st x i s : nth_error (snd st) i = Some s ->
  exists b, nth_error (snd (do_step st x)) i = Some (with_bool s b) /\
    (b = l_bool s \/ b = Some (alive (fst st) s)).
Proof.
  destruct st as [h l]. simpl. intros H.
  assert (Hs : with_bool s (l_bool s) = s) by now destruct s.
  assert (K : exists b, nth_error l i = Some (with_bool s b) /\ (b = l_bool s \/ b = Some (alive h s))).
  { exists (l_bool s). rewrite Hs. auto. }
  destruct x as [h'|a ma r mr n mn|j|j d|j k]; simpl.
  - auto.
  - exists (l_bool s). rewrite Hs. split; auto. rewrite nth_error_app1; auto.
    apply nth_error_Some. congruence.
  - destruct (nth_error l j) as [t|] eqn:E; simpl; auto.
    rewrite nth_asked, truth_now. simpl. destruct (Nat.eqb j i) eqn:F; auto.
    apply Nat.eqb_eq in F; subst. rewrite H. assert (t = s) by congruence; subst.
    exists (Some (alive h s)). auto.
  - destruct (nth_error l j) as [t|] eqn:E; simpl; auto.
    rewrite nth_asked, call_bool. destruct (Nat.eqb j i) eqn:F; auto.
    apply Nat.eqb_eq in F; subst. rewrite H. assert (t = s) by congruence; subst.
    exists (Some (alive h s)). auto.
  - destruct (nth_error l j) as [t|] eqn:E; simpl; auto.
    destruct (nth_error l k) as [u|] eqn:E2; simpl; auto.
    destruct (sel_merge2 (now h t) (now h u)) as [r [t' u']] eqn:M.
    destruct (merge_bools _ _ _ _ _ _ M) as (B1 & B2 & _).
    assert (P : exists b, nth_error (asked k (s_bool u') (asked j (s_bool t') l)) i = Some (with_bool s b) /\
              (b = l_bool s \/ b = Some (alive h s))).
    { rewrite !nth_asked. destruct (Nat.eqb k i) eqn:F.
      - apply Nat.eqb_eq in F; subst k. assert (u = s) by congruence; subst u.
        destruct (Nat.eqb j i); rewrite H.
        + exists (s_bool u'). split; auto.
        + exists (s_bool u'). split; auto.
      - destruct (Nat.eqb j i) eqn:G; auto. apply Nat.eqb_eq in G; subst j.
        assert (t = s) by congruence; subst t. rewrite H. exists (s_bool t'). split; auto. }
    destruct (_ && _); auto. simpl. destruct P as (b & P & Q). exists b. split; auto.
    rewrite nth_error_app1; auto. apply nth_error_Some. congruence.
Qed.

(** the attributes of a Select are never those of another one *)
Lemma step_length st x : (List.length (snd st) <= List.length (snd (do_step st x)))%nat.
Proof.
  destruct st as [h l]. destruct x as [h'|a ma r mr n mn|j|j d|j k]; simpl; auto.
  - rewrite app_length. simpl. lia.
  - destruct (nth_error l j); simpl; auto. now rewrite length_asked.
  - destruct (nth_error l j); simpl; auto. now rewrite length_asked.
  - destruct (nth_error l j), (nth_error l k); simpl; auto.
    destruct (sel_merge2 _ _) as [r [t' u']]. destruct (_ && _); simpl; rewrite ?app_length, !length_asked; lia.
Qed.

(** all tuples *)
Definition solid s : Prop :=
  (exists x, l_add s = Tuple x) /\ (exists x, l_madd s = Tuple x) /\ (exists x, l_rem s = Tuple x)
  /\ (exists x, l_mrem s = Tuple x) /\ (exists x, l_ren s = Tuple x) /\ (exists x, l_mren s = Tuple x).

Lemma solid_now s h h' : solid s -> now h s = now h' s.
Proof.
  intros ((a & Ha) & (b & Hb) & (c & Hc) & (e & He) & (f & Hf) & (g & Hg)). unfold now.
  now rewrite Ha, Hb, Hc, He, Hf, Hg.
Qed.

Lemma apply_alive h s d : sel_apply (now h s) d =
  if alive h s then sel_apply (now h (with_bool s (Some true))) d else Ok d.
Proof.
  unfold sel_apply, sel_call_mapping, sel_call. rewrite !truth_now.
  destruct (alive h s) eqn:E; cbn [negb].
  - unfold alive. cbn [l_bool with_bool negb]. reflexivity.
  - reflexivity.
Qed.

(** cached truths that are right make no difference *)
Lemma apply_right h s b d : b = None \/ b = Some (nonempty (now h s)) ->
  l_bool s = None \/ l_bool s = Some (nonempty (now h s)) ->
  sel_apply (now h (with_bool s b)) d = sel_apply (now h s) d.
Proof.
  intros Hb Hs. rewrite (apply_alive h s), (apply_alive h (with_bool s b)). cbn [with_bool l_add l_madd l_rem l_mrem l_ren l_mren].
  assert (E : alive h s = nonempty (now h s)) by (unfold alive; destruct Hs as [-> | ->]; reflexivity).
  assert (F : alive h (with_bool s b) = nonempty (now h s)).
  { unfold alive. cbn [with_bool l_bool]. destruct Hb as [-> | ->]; reflexivity. }
  rewrite E, F. reflexivity.
Qed.

Lemma solid_step st x i s : nth_error (snd st) i = Some s -> solid s ->
  (l_bool s = None \/ l_bool s = Some (nonempty (now (fst st) s))) ->
  exists b, nth_error (snd (do_step st x)) i = Some (with_bool s b) /\
    (b = None \/ b = Some (nonempty (now (fst st) s))).
Proof.
  intros H So B. destruct (step_one st x i s H) as (b & H1 & H2). exists b. split; auto.
  destruct H2 as [-> | ->]; auto. unfold alive. destruct B as [-> | ->]; auto.
Qed.

Lemma solid_steps ys : forall st i s, nth_error (snd st) i = Some s -> solid s ->
  (l_bool s = None \/ l_bool s = Some (nonempty (now (fst st) s))) ->
  forall d, effect (steps st ys) i d = Some (sel_apply (now (fst st) s) d).
Proof.
  induction ys as [|y ys IH]; intros st i s H So B d.
  - unfold effect, steps. simpl. now rewrite H.
  - destruct (solid_step st y i s H So B) as (b & H1 & H2).
    change (steps st (y :: ys)) with (steps (do_step st y) ys).
    assert (So' : solid (with_bool s b)) by exact So.
    assert (N : nonempty (now (fst (do_step st y)) (with_bool s b)) = nonempty (now (fst st) s)).
    { rewrite (solid_now (with_bool s b) _ (fst st) So'). reflexivity. }
    rewrite (IH (do_step st y) i (with_bool s b) H1 So').
    + rewrite (solid_now (with_bool s b) _ (fst st) So'). f_equal. apply apply_right; auto.
    + cbn [with_bool l_bool]. cbn [with_bool l_bool] in N. rewrite N. exact H2.
Qed.

Lemma dead_steps ys : forall st i s, nth_error (snd st) i = Some s -> l_bool s = Some false ->
  forall d, effect (steps st ys) i d = Some (Ok d).
Proof.
  induction ys as [|y ys IH]; intros st i s H B d.
  - unfold effect, steps. simpl. rewrite H, apply_alive. unfold alive. now rewrite B.
  - destruct (step_one st y i s H) as (b & H1 & H2).
    change (steps st (y :: ys)) with (steps (do_step st y) ys).
    apply (IH _ _ _ H1). cbn [with_bool l_bool]. destruct H2 as [-> | ->]; auto.
    unfold alive. now rewrite B.
Qed.

Lemma alone_step st x i s : nth_error (snd st) i = Some s -> leaves_alone i x = true ->
  nth_error (snd (do_step st x)) i = Some s.
Proof.
  destruct st as [h l]. simpl. intros H L.
  destruct x as [h'|a ma r mr n mn|j|j d|j k]; simpl in *; auto.
  - rewrite nth_error_app1; auto. apply nth_error_Some. congruence.
  - destruct (nth_error l j) as [t|] eqn:E; simpl; auto.
    rewrite nth_asked. rewrite Nat.eqb_sym in L. now destruct (Nat.eqb j i).
  - destruct (nth_error l j) as [t|] eqn:E; simpl; auto.
    rewrite nth_asked. rewrite Nat.eqb_sym in L. now destruct (Nat.eqb j i).
  - destruct (nth_error l j) as [t|] eqn:E; simpl; auto.
    destruct (nth_error l k) as [u|] eqn:E2; simpl; auto.
    destruct (sel_merge2 (now h t) (now h u)) as [r [t' u']] eqn:M.
    apply andb_prop in L as [L1 L2]. rewrite Nat.eqb_sym in L1. rewrite Nat.eqb_sym in L2.
    assert (P : nth_error (asked k (s_bool u') (asked j (s_bool t') l)) i = Some s).
    { rewrite !nth_asked. destruct (Nat.eqb k i); [discriminate|]. now destruct (Nat.eqb j i). }
    destruct (_ && _); auto. simpl. rewrite nth_error_app1; auto. apply nth_error_Some. congruence.
Qed.

Lemma alone_steps ys : forall st i s, nth_error (snd st) i = Some s -> forallb (leaves_alone i) ys = true ->
  nth_error (snd (steps st ys)) i = Some s.
Proof.
  induction ys as [|y ys IH]; intros st i s H L; [exact H|].
  simpl in L. apply andb_prop in L as [L1 L2].
  change (steps st (y :: ys)) with (steps (do_step st y) ys). apply IH; auto. now apply alone_step.
Qed.

Lemma steps_app st xs ys : steps st (xs ++ ys) = steps (steps st xs) ys.
Proof. apply fold_left_app. Qed.

Lemma keep_read {X} (at_ : nat -> list X) g : read at_ (keep g) = contents at_ g.
Proof. now destruct g. Qed.

Lemma made_now_now h a ma r mr n mn : now h (new_live a ma r mr n mn) = made_now h a ma r mr n mn.
Proof. unfold now, new_live, made_now, sel_init. simpl. now rewrite !keep_read. Qed.

Lemma nth_new l (s : live A) : nth_error (l ++ [s]) (List.length l) = Some s.
Proof. rewrite nth_error_app2 by lia. now rewrite Nat.sub_diag. Qed.

Lemma copied_solid {X} (g : given X) : copied g = true -> exists x, keep g = Tuple x.
Proof. destruct g; simpl; eauto; discriminate. Qed.

End LiveProofs.

Lemma c127_copied_partial_proof : forall {A} (h0 : lists_now A) xs a ma r mr n mn,
  copied a = true -> copied ma = true -> copied r = true -> copied mr = true -> copied n = true -> copied mn = true ->
  let st := steps (h0, []) xs in
  forall ys d h,
  effect (steps st (New a ma r mr n mn :: ys)) (List.length (snd st)) d
  = Some (sel_apply (made_now h a ma r mr n mn) d).
Proof.
  intros A h0 xs a ma r mr n mn Ha Hma Hr Hmr Hn Hmn st ys d h.
  change (steps st (New a ma r mr n mn :: ys)) with (steps (do_step st (New a ma r mr n mn)) ys).
  destruct st as [h1 l]. simpl.
  assert (So : solid (new_live a ma r mr n mn)) by (repeat split; now apply copied_solid).
  rewrite (solid_steps ys (h1, l ++ [new_live a ma r mr n mn]) (List.length l) (new_live a ma r mr n mn)).
  - simpl. rewrite (solid_now _ h1 h So). now rewrite made_now_now.
  - apply nth_new.
  - exact So.
  - now left.
Qed.

Lemma c127_merged_partial_proof : forall {A} (h0 : lists_now A) xs i j s t,
  let st := steps (h0, []) xs in
  nth_error (snd st) i = Some s -> nth_error (snd st) j = Some t ->
  fst (sel_truth (now (fst st) s)) = true -> fst (sel_truth (now (fst st) t)) = true ->
  forall ys d,
  effect (steps st (Merge i j :: ys)) (List.length (snd st)) d
  = Some (sel_apply (fst (sel_merge2 (now (fst st) s) (now (fst st) t))) d).
Proof.
  intros A h0 xs i j s t st Hi Hj Ts Tt ys d.
  change (steps st (Merge i j :: ys)) with (steps (do_step st (Merge i j)) ys).
  destruct st as [h l]. simpl in *. rewrite Hi, Hj.
  destruct (sel_merge2 (now h s) (now h t)) as [r [s' t']] eqn:M. rewrite Ts, Tt. simpl.
  rewrite truth_now in Ts, Tt. simpl in Ts, Tt.
  destruct (merge_bools _ _ _ _ _ _ M) as (_ & _ & E). destruct (E Ts Tt) as [_ ->]. clear E.
  set (r := Sel _ _ _ _ _ _ None).
  assert (So : solid (from_sel r)) by (repeat split; eexists; reflexivity).
  rewrite (solid_steps ys (h, asked j (s_bool t') (asked i (s_bool s') l) ++ [from_sel r]) (List.length l) (from_sel r)).
  - reflexivity.
  - simpl. rewrite <- (length_asked l i (s_bool s')), <- (length_asked _ j (s_bool t')). apply nth_new.
  - exact So.
  - now left.
Qed.

Lemma c127_list_refuted_proof : forall {A} (h0 : lists_now A) xs a ma r mr n mn ys,
  let st := steps (h0, []) xs in
  forallb (leaves_alone (List.length (snd st))) ys = true ->
  let st' := steps st (New a ma r mr n mn :: ys) in
  forall d, effect st' (List.length (snd st)) d = Some (sel_apply (made_now (fst st') a ma r mr n mn) d).
Proof.
  intros A h0 xs a ma r mr n mn ys st L st' d.
  assert (H : nth_error (snd st') (List.length (snd st)) = Some (new_live a ma r mr n mn)).
  { subst st'. change (steps st (New a ma r mr n mn :: ys)) with (steps (do_step st (New a ma r mr n mn)) ys).
    apply alone_steps; auto. destruct st as [h l]. simpl. apply nth_new. }
  unfold effect. rewrite H. now rewrite made_now_now.
Qed.

Lemma c127_changes_refuted_proof : forall {A} (v : A), exists (h0 : lists_now A) xs ys i d,
  effect (steps (h0, []) xs) i d <> effect (steps (h0, []) (xs ++ ys)) i d.
Proof.
  intros A v. exists (@Lists A (fun _ => []) (fun _ => []) (fun _ => [])).
  exists [New (GivenTuple []) (GivenTuple []) (GivenList 0) (GivenTuple []) (GivenTuple []) (GivenTuple [])].
  exists [Change (@Lists A (fun _ => []) (fun _ => ["a"]) (fun _ => []))].
  exists 0%nat, [("a", v)]. cbn. discriminate.
Qed.

Lemma c127_stale_refuted_proof : forall {A} (h0 : lists_now A) xs k ys x,
  let st := steps (h0, []) xs in
  let i := List.length (snd st) in
  names_at (fst st) k = [] ->
  (x = Ask i \/ (exists d, x = Use i d) \/ (exists j, (j < i)%nat /\ x = Merge i j)) ->
  forall d,
  effect (steps st (New (GivenTuple []) (GivenTuple []) (GivenList k) (GivenTuple []) (GivenTuple []) (GivenTuple [])
                    :: x :: ys)) i d = Some (Ok d).
Proof.
  intros A h0 xs k ys x st i E Hx d.
  set (nw := New _ _ _ _ _ _).
  change (steps st (nw :: x :: ys)) with (steps (do_step (do_step st nw) x) ys).
  set (s := new_live (GivenTuple []) (GivenTuple []) (GivenList k) (GivenTuple []) (GivenTuple []) (GivenTuple []) : live A).
  assert (H : nth_error (snd (do_step st nw)) i = Some s).
  { subst i. destruct st as [h l]. simpl. apply nth_new. }
  assert (D : alive (fst (do_step st nw)) s = false).
  { destruct st as [h l]. simpl in *. unfold alive. simpl. unfold nonempty, edits_of. simpl. now rewrite E. }
  apply (dead_steps ys _ i (with_bool s (Some false))); [|reflexivity].
  assert (L : List.length (snd (do_step st nw)) = S i).
  { subst i. destruct st as [h l]. simpl. rewrite app_length. simpl. lia. }
  destruct (do_step st nw) as [h l]. simpl in *.
  destruct Hx as [-> | [(d' & ->) | (j & Hj & ->)]]; simpl; rewrite H; simpl.
  - rewrite truth_now. simpl. rewrite nth_asked, Nat.eqb_refl, H, D. reflexivity.
  - rewrite call_bool. rewrite nth_asked, Nat.eqb_refl, H, D. reflexivity.
  - destruct (nth_error l j) as [t|] eqn:Ej; [|apply nth_error_None in Ej; lia].
    destruct (sel_merge2 (now h s) (now h t)) as [r [s' t']] eqn:M.
    destruct (merge_bools _ _ _ _ _ _ M) as (B & _ & _). rewrite D in B.
    rewrite truth_now, D. simpl. rewrite !nth_asked, Nat.eqb_refl.
    destruct (Nat.eqb j i) eqn:F; [apply Nat.eqb_eq in F; lia|]. rewrite H, B. reflexivity.
Qed.
