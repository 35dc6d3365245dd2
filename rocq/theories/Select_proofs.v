(** Select_proofs.v -- lemmas about the model of Select *)
From Verif Require Import Base Dict_proofs Select Spec_Select.

Section SelectProofs.
Context {A : Type}.
Implicit Types (s : sel A) (d : dict A).

(** the edits a Select stands for, in the order in which the code runs them *)
Definition edits_of s : list (edit A) :=
  map Remove (elements (s_rem s)) ++ map MaybeRemove (elements (s_mrem s))
  ++ map (fun p => Rename (fst p) (snd p)) (elements (s_ren s))
  ++ map (fun p => MaybeRename (fst p) (snd p)) (elements (s_mren s))
  ++ map (fun p => Add (fst p) (snd p)) (elements (s_add s))
  ++ map (fun p => MaybeAdd (fst p) (snd p)) (elements (s_madd s)).

Definition abs d : fmap A := fun k => dget k d.

(** relation between a verdict of the specification and a run of the model *)
Definition agrees (v : verdict A) (o : outcome unit) (d' : dict A) : Prop :=
  match v with
  | Done m => o = Ok tt /\ dict_ok d' /\ forall k, dget k d' = m k
  | Missing k => o = Raise (mkexc KeyError k)
  | Occupied k => o = Raise (clash k)
  end.

Lemma edit_step_ext e (m m' : fmap A) : (forall k, m k = m' k) ->
  match edit_step e m, edit_step e m' with
  | Done x, Done y => forall k, x k = y k
  | Missing a, Missing b => a = b
  | Occupied a, Occupied b => a = b
  | _, _ => False
  end.
Proof.
  intros H. destruct e; simpl; rewrite <- ?H;
    repeat (match goal with |- context [match ?x with Some _ => _ | None => _ end] => destruct x eqn:? end; auto);
    intros k'; unfold fput; repeat destruct (String.eqb _ _); auto.
Qed.

Lemma edits_ext l : forall (m m' : fmap A), (forall k, m k = m' k) ->
  match edits l m, edits l m' with
  | Done x, Done y => forall k, x k = y k
  | Missing a, Missing b => a = b
  | Occupied a, Occupied b => a = b
  | _, _ => False
  end.
Proof.
  induction l as [|e r IH]; simpl; intros m m' H; auto.
  pose proof (edit_step_ext e m m' H) as Hs.
  destruct (edit_step e m), (edit_step e m'); try tauto; auto.
  apply IH. exact Hs.
Qed.

Lemma agrees_ext l m m' o d : (forall k, m k = m' k) -> agrees (edits l m) o d -> agrees (edits l m') o d.
Proof.
  intros H. pose proof (edits_ext l m m' H) as E.
  destruct (edits l m), (edits l m'); simpl; try tauto; intros; subst; auto.
  destruct H0 as (? & ? & ?). repeat split; auto. intros. now rewrite <- E.
Qed.

(** one body agrees with one edit *)
Definition body_ok {X} (body : X -> dict A -> outcome unit * dict A) (ed : X -> edit A) : Prop :=
  forall x d, dict_ok d -> let '(o, d') := body x d in agrees (edit_step (ed x) (abs d)) o d'.

Lemma remove_ok : body_ok do_remove Remove.
Proof.
  intros k d H. unfold do_remove. simpl. unfold abs, dmem.
  destruct (dget k d) eqn:E; simpl; auto.
  split; [|split]; auto using dict_ok_ddel.
  intros k'. rewrite dget_ddel by auto. unfold fput. reflexivity.
Qed.

Lemma mremove_ok : body_ok do_mremove MaybeRemove.
Proof.
  intros k d H. unfold do_mremove. simpl. split; [|split]; auto using dict_ok_ddel.
  intros k'. rewrite dget_ddel by auto. reflexivity.
Qed.

Lemma rename_ok : body_ok do_rename (fun p => Rename (fst p) (snd p)).
Proof.
  intros [src dst] d H. unfold do_rename. simpl. unfold dmem, abs.
  destruct (dget dst d) eqn:Ed; simpl; auto.
  destruct (dget src d) eqn:Es; simpl; auto.
  split; [|split]; auto using dict_ok_ddel, dict_ok_dset.
  intros k'. rewrite dget_dset. unfold fput. destruct (String.eqb k' dst); auto.
  now rewrite dget_ddel.
Qed.

Lemma mrename_ok : body_ok do_mrename (fun p => MaybeRename (fst p) (snd p)).
Proof.
  intros [src dst] d H. unfold do_mrename. simpl. unfold dmem, abs.
  destruct (dget src d) eqn:Es; simpl; auto.
  destruct (dget dst d) eqn:Ed; simpl; auto.
  split; [|split]; auto using dict_ok_ddel, dict_ok_dset.
  intros k'. rewrite dget_dset. unfold fput. destruct (String.eqb k' dst); auto.
  now rewrite dget_ddel.
Qed.

Lemma add_ok : body_ok do_add (fun p => Add (fst p) (snd p)).
Proof.
  intros [k v] d H. unfold do_add. simpl. unfold dmem, abs.
  destruct (dget k d) eqn:E; simpl; auto.
  split; [|split]; auto using dict_ok_dset.
  intros k'. rewrite dget_dset. reflexivity.
Qed.

Lemma madd_ok : body_ok do_madd (fun p => MaybeAdd (fst p) (snd p)).
Proof.
  intros [k v] d H. unfold do_madd. simpl. unfold dmem, abs.
  destruct (dget k d) eqn:E; simpl; auto.
  split; [|split]; auto using dict_ok_dset.
  intros k'. rewrite dget_dset. reflexivity.
Qed.

(** a whole loop followed by the rest of the edits *)
Lemma for_each_ok {X} (body : X -> dict A -> outcome unit * dict A) (ed : X -> edit A) :
  body_ok body ed -> forall l d, dict_ok d ->
  match for_each body l d with
  | (Ok _, d', rest) => rest = [] /\ dict_ok d' /\
                        (forall tail o d'', agrees (edits tail (abs d')) o d'' ->
                                            agrees (edits (map ed l ++ tail) (abs d)) o d'')
  | (Raise e, d', _) => forall tail d'', agrees (edits (map ed l ++ tail) (abs d)) (Raise e) d''
  end.
Proof.
  intros Hb. induction l as [|x r IH]; intros d Hd; simpl.
  - auto.
  - pose proof (Hb x d Hd) as H. destruct (body x d) as [[u|e] d'] eqn:E.
    + destruct (edit_step (ed x) (abs d)) as [m|k|k]; simpl in H; try discriminate.
      destruct H as (_ & Hd' & Hm). specialize (IH d' Hd').
      destruct (for_each body r d') as [[[u'|e'] d2] rest].
      * destruct IH as (-> & Hd2 & IH). split; [|split]; auto. intros tail o d'' Ha.
        apply IH in Ha. revert Ha. apply agrees_ext. intros; apply Hm.
      * intros tail d''. specialize (IH tail d''). revert IH. apply agrees_ext. intros; apply Hm.
    + intros tail d''. destruct (edit_step (ed x) (abs d)) as [m|k|k]; simpl in H; auto.
      destruct H; discriminate.
Qed.

Lemma pull_stable {X} (it : iter X) : stable_iter it = true -> snd (pull it) = it.
Proof. destruct it as [[|]|]; simpl; auto; discriminate. Qed.

Lemma pull_elements {X} (it : iter X) : fst (pull it) = match elements it with [] => false | _ => true end.
Proof. destruct it as [[|]|[|]]; auto. Qed.

Lemma leave_stable {X} (it : iter X) l : stable_iter it = true -> leave it l = it.
Proof. destruct it; simpl; auto; discriminate. Qed.

Definition bool_ok s : Prop :=
  match s_bool s with
  | None => True
  | Some b => b = match edits_of s with [] => false | _ => true end
  end.

Definition set_bool s b : sel A :=
  let '(Sel a ma r mr n mn _) := s in Sel a ma r mr n mn b.

Lemma edits_of_set_bool s b : edits_of (set_bool s b) = edits_of s.
Proof. now destruct s. Qed.

Lemma stable_set_bool s b : stable s -> stable (set_bool s b).
Proof. now destruct s. Qed.

Lemma sel_truth_stable s : stable s -> bool_ok s ->
  let b := match edits_of s with [] => false | _ => true end in
  sel_truth s = (b, set_bool s (Some b)).
Proof.
  intros (H1 & H2 & H3 & H4 & H5 & H6) Hb. unfold bool_ok in Hb. unfold sel_truth.
  destruct (s_bool s) as [c|] eqn:Ec.
  - rewrite Hb. destruct s; simpl in *. subst. now rewrite <- Hb.
  - destruct s as [a ma r mr n mn bb]. simpl in H1, H2, H3, H4, H5, H6.
    destruct a as [a|]; [|discriminate]. destruct ma as [ma|]; [|discriminate].
    destruct r as [r|]; [|discriminate]. destruct mr as [mr|]; [|discriminate].
    destruct n as [n|]; [|discriminate]. destruct mn as [mn|]; [|discriminate].
    unfold edits_of. simpl.
    destruct a as [|? a]; simpl;
    [destruct ma as [|? ma]; simpl;
     [destruct r as [|? r]; simpl;
      [destruct mr as [|? mr]; simpl;
       [destruct n as [|? n]; simpl;
        [destruct mn as [|? mn]; simpl|]|]|]|]|].
    all: repeat match goal with |- context [map ?f ?l ++ _] => destruct l; simpl end; reflexivity.
Qed.

Lemma sel_call_agrees s d : stable s -> bool_ok s -> dict_ok d ->
  let '(o, d', s') := sel_call s d in
  agrees (edits (edits_of s) (abs d)) o d'
  /\ s' = set_bool s (Some match edits_of s with [] => false | _ => true end).
Proof.
  intros Hs Hb Hd. unfold sel_call. rewrite (sel_truth_stable s Hs Hb).
  destruct (edits_of s) as [|e0 r0] eqn:Ee.
  - simpl. split; auto.
  - cbn [negb]. rewrite <- Ee.
    destruct s as [a ma r mr n mn bb]. cbn [set_bool].
    destruct Hs as (H1 & H2 & H3 & H4 & H5 & H6); simpl in H1, H2, H3, H4, H5, H6.
    unfold edits_of; simpl.
    pose proof (for_each_ok _ _ remove_ok (elements r) d Hd) as F.
    destruct (for_each do_remove (elements r) d) as [[[u|e] d1] x1];
      [destruct F as (-> & D1 & F) | split; [apply F | now rewrite leave_stable]].
    pose proof (for_each_ok _ _ mremove_ok (elements mr) d1 D1) as G.
    destruct (for_each do_mremove (elements mr) d1) as [[[u2|e2] d2] x2];
      [destruct G as (-> & D2 & G) | split; [apply F, G | now rewrite !leave_stable]].
    pose proof (for_each_ok _ _ rename_ok (elements n) d2 D2) as I.
    destruct (for_each do_rename (elements n) d2) as [[[u3|e3] d3] x3];
      [destruct I as (-> & D3 & I) | split; [apply F, G, I | now rewrite !leave_stable]].
    pose proof (for_each_ok _ _ mrename_ok (elements mn) d3 D3) as J.
    destruct (for_each do_mrename (elements mn) d3) as [[[u4|e4] d4] x4];
      [destruct J as (-> & D4 & J) | split; [apply F, G, I, J | now rewrite !leave_stable]].
    pose proof (for_each_ok _ _ add_ok (elements a) d4 D4) as K.
    destruct (for_each do_add (elements a) d4) as [[[u5|e5] d5] x5];
      [destruct K as (-> & D5 & K) | split; [apply F, G, I, J, K | now rewrite !leave_stable]].
    pose proof (for_each_ok _ _ madd_ok (elements ma) d5 D5) as L.
    destruct (for_each do_madd (elements ma) d5) as [[[u6|e6] d6] x6].
    + destruct L as (-> & D6 & L). split; [|now rewrite !leave_stable].
      apply F, G, I, J, K. rewrite <- (app_nil_r (map _ (elements ma))). apply L. simpl. auto.
    + split; [|now rewrite !leave_stable].
      apply F, G, I, J, K. rewrite <- (app_nil_r (map _ (elements ma))). apply L.
Qed.

End SelectProofs.
