(** Dict_proofs.v -- lemmas about the insertion-ordered dicts of Base.v *)
From Verif Require Import Base.

Section Dict.
Context {A : Type}.
Implicit Types (d e : dict A) (k : string) (v : A).

Lemma smem_In k l : smem k l = true <-> In k l.
Proof.
  unfold smem. rewrite existsb_exists. split.
  - intros (x & Hx & He). apply String.eqb_eq in He. now subst.
  - intros H. exists k. split; auto. apply String.eqb_refl.
Qed.

Lemma smem_false k l : smem k l = false <-> ~ In k l.
Proof. rewrite <- smem_In. destruct (smem k l); split; congruence. Qed.

Lemma dget_None k d : dget k d = None <-> ~ In k (keys d).
Proof.
  induction d as [|[k' v'] r IH]; simpl; [tauto|].
  destruct (String.eqb_spec k k') as [->|N].
  - split; [discriminate | intros H; exfalso; apply H; now left].
  - rewrite IH. split; intros H; [intros [E|E]; congruence || tauto | tauto].
Qed.

Lemma dget_Some_In k v d : dget k d = Some v -> In (k, v) d.
Proof.
  induction d as [|[k' v'] r IH]; simpl; [discriminate|].
  destruct (String.eqb_spec k k') as [->|N]; intros H.
  - injection H as ->. now left.
  - right; auto.
Qed.

Lemma dget_In k v d : dict_ok d -> In (k, v) d -> dget k d = Some v.
Proof.
  unfold dict_ok. induction d as [|[k' v'] r IH]; simpl; [tauto|].
  intros Hnd H. inversion Hnd as [|? ? Hni Hnd']; subst.
  destruct H as [E|H].
  - injection E as -> ->. now rewrite String.eqb_refl.
  - destruct (String.eqb_spec k k') as [->|N]; auto.
    exfalso. apply Hni. change k' with (fst (k', v)). now apply in_map.
Qed.

Lemma dget_some_key k v d : dget k d = Some v -> In k (keys d).
Proof. intros H. apply dget_Some_In in H. change k with (fst (k, v)). now apply in_map. Qed.

Lemma dmem_In k d : dmem k d = true <-> In k (keys d).
Proof.
  unfold dmem. destruct (dget k d) eqn:E.
  - split; auto. intros _. eapply dget_some_key; eauto.
  - apply dget_None in E. split; [discriminate|tauto].
Qed.

Lemma dmem_false k d : dmem k d = false <-> ~ In k (keys d).
Proof. rewrite <- dmem_In. destruct (dmem k d); split; congruence. Qed.

Lemma dmem_false_get k d : dmem k d = false <-> dget k d = None.
Proof. unfold dmem. destruct (dget k d); split; congruence. Qed.

Lemma dmem_true_get k d : dmem k d = true <-> exists v, dget k d = Some v.
Proof. unfold dmem. destruct (dget k d); split; eauto; [discriminate | intros [? ?]; discriminate]. Qed.

Lemma dget_dset_same k v d : dget k (dset k v d) = Some v.
Proof.
  induction d as [|[k' v'] r IH]; simpl.
  - now rewrite String.eqb_refl.
  - destruct (String.eqb_spec k k') as [->|N]; simpl.
    + now rewrite String.eqb_refl.
    + apply String.eqb_neq in N. now rewrite N.
Qed.

Lemma dget_dset_other k k' v d : k <> k' -> dget k (dset k' v d) = dget k d.
Proof.
  intros N. induction d as [|[k2 v2] r IH]; simpl.
  - apply String.eqb_neq in N. now rewrite N.
  - destruct (String.eqb_spec k' k2) as [->|N2]; simpl.
    + apply String.eqb_neq in N. now rewrite N.
    + now rewrite IH.
Qed.

Lemma dget_dset k k' v d : dget k (dset k' v d) = if String.eqb k k' then Some v else dget k d.
Proof.
  destruct (String.eqb_spec k k') as [->|N]; [apply dget_dset_same | now apply dget_dset_other].
Qed.

Lemma dget_ddel_other k k' d : k <> k' -> dget k (ddel k' d) = dget k d.
Proof.
  intros N. induction d as [|[k2 v2] r IH]; simpl; auto.
  destruct (String.eqb_spec k' k2) as [->|N2]; simpl.
  - apply String.eqb_neq in N. now rewrite N.
  - now rewrite IH.
Qed.

Lemma dget_ddel_same k d : dict_ok d -> dget k (ddel k d) = None.
Proof.
  unfold dict_ok. induction d as [|[k2 v2] r IH]; simpl; auto.
  intros Hnd. inversion Hnd as [|? ? Hni Hnd']; subst.
  destruct (String.eqb_spec k k2) as [->|N2]; simpl.
  - now apply dget_None.
  - apply String.eqb_neq in N2. rewrite N2. auto.
Qed.

Lemma dget_ddel k k' d : dict_ok d -> dget k (ddel k' d) = if String.eqb k k' then None else dget k d.
Proof.
  intros H. destruct (String.eqb_spec k k') as [->|N]; [now apply dget_ddel_same | now apply dget_ddel_other].
Qed.

Lemma ddel_notin k d : ~ In k (keys d) -> ddel k d = d.
Proof.
  induction d as [|[k2 v2] r IH]; simpl; auto. intros H.
  destruct (String.eqb_spec k k2) as [->|N2]; [tauto|]. f_equal. apply IH. tauto.
Qed.

Lemma keys_dset k v d : keys (dset k v d) = if dmem k d then keys d else keys d ++ [k].
Proof.
  unfold dmem, keys. induction d as [|[k2 v2] r IH]; simpl; auto.
  destruct (String.eqb_spec k k2) as [->|N2]; simpl; auto.
  rewrite IH. destruct (dget k r); auto.
Qed.

Lemma in_keys_dset k k' v d : In k (keys (dset k' v d)) <-> k = k' \/ In k (keys d).
Proof.
  rewrite keys_dset. destruct (dmem k' d) eqn:E.
  - apply dmem_In in E. split; auto. intros [->|]; auto.
  - rewrite in_app_iff. simpl. intuition auto.
Qed.

Lemma dict_ok_dset k v d : dict_ok d -> dict_ok (dset k v d).
Proof.
  unfold dict_ok. rewrite keys_dset. destruct (dmem k d) eqn:E; auto. intros H.
  apply dmem_false in E.
  apply (Permutation_NoDup (l := k :: keys d)).
  - change (k :: keys d) with ([k] ++ keys d). apply Permutation_app_comm.
  - now constructor.
Qed.

Lemma in_keys_ddel k k' d : In k (keys (ddel k' d)) -> In k (keys d).
Proof.
  induction d as [|[k2 v2] r IH]; simpl; auto.
  destruct (String.eqb_spec k' k2) as [->|N2]; simpl; tauto.
Qed.

Lemma dict_ok_ddel k d : dict_ok d -> dict_ok (ddel k d).
Proof.
  unfold dict_ok. induction d as [|[k2 v2] r IH]; simpl; auto. intros H.
  inversion H as [|? ? Hni Hnd]; subst.
  destruct (String.eqb_spec k k2) as [->|N2]; simpl; auto.
  constructor; auto. intros Hi. apply Hni. eapply in_keys_ddel; eauto.
Qed.

Lemma dset_append k v d : ~ In k (keys d) -> dset k v d = d ++ [(k, v)].
Proof.
  induction d as [|[k2 v2] r IH]; simpl; auto. intros H.
  destruct (String.eqb_spec k k2) as [->|N2]; [tauto|]. f_equal. apply IH. tauto.
Qed.

Lemma dict_ok_dupdate e d : dict_ok d -> dict_ok (dupdate d e).
Proof.
  unfold dupdate. revert d. induction e as [|[k v] r IH]; simpl; auto.
  intros d H. apply IH. now apply dict_ok_dset.
Qed.

Lemma dget_dupdate k e d : dict_ok e ->
  dget k (dupdate d e) = match dget k e with Some v => Some v | None => dget k d end.
Proof.
  unfold dupdate, dict_ok. revert d. induction e as [|[k' v'] r IH]; simpl; auto.
  intros d H. inversion H as [|? ? Hni Hnd]; subst.
  rewrite IH; auto. rewrite dget_dset.
  destruct (String.eqb_spec k k') as [->|N]; auto.
  apply dget_None in Hni. now rewrite Hni.
Qed.

Lemma dget_app k d e : dget k (d ++ e) = match dget k d with Some v => Some v | None => dget k e end.
Proof.
  induction d as [|[k' v'] r IH]; simpl; auto. destruct (String.eqb k k'); auto.
Qed.

Lemma keys_app d e : keys (d ++ e) = keys d ++ keys e.
Proof. apply map_app. Qed.

Lemma dupdate_app_fresh e d :
  dict_ok e -> (forall k, In k (keys e) -> ~ In k (keys d)) -> dupdate d e = d ++ e.
Proof.
  unfold dupdate, dict_ok. revert d. induction e as [|[k' v'] r IH]; simpl.
  - intros; now rewrite app_nil_r.
  - intros d H Hf. inversion H as [|? ? Hni Hnd]; subst.
    rewrite dset_append by (apply Hf; now left).
    rewrite IH; auto.
    + now rewrite <- app_assoc.
    + intros k Hk. rewrite keys_app, in_app_iff. simpl.
      intros [Hd|[E|[]]].
      * apply (Hf k); auto.
      * congruence.
Qed.

Lemma dict_eq_ext d e : dict_ok d -> keys d = keys e -> (forall k, dget k d = dget k e) -> d = e.
Proof.
  unfold dict_ok. revert e. induction d as [|[k v] r IH]; intros [|[k' v'] r'] Hn Hk Hg; try discriminate; auto.
  simpl in *. injection Hk as -> Hk'. inversion Hn as [|? ? Hni Hnd]; subst.
  pose proof (Hg k') as H0. rewrite String.eqb_refl in H0. injection H0 as ->. f_equal.
  apply IH; auto. intros k2. specialize (Hg k2). destruct (String.eqb_spec k2 k') as [E|N]; auto.
  rewrite E. transitivity (@None A); [|symmetry]; apply dget_None; auto.
  now rewrite <- Hk'.
Qed.

Lemma in_keys_get k d : In k (keys d) -> exists v, dget k d = Some v.
Proof. intros H. apply dmem_In in H. now apply dmem_true_get. Qed.

End Dict.
