(** Filler_seal.v -- a bound filler and all its parts refuse further tokens. *)
From Verif Require Import Base Py Filler Spec_Filler Filler_proofs.

Section Seal.
Context {obj ty W : Type} (P : Py obj ty W).
Notation token := (@token obj ty W).
Notation filler := (@filler obj ty W).
Notation afiller := (@afiller obj ty W).

Definition asealed (a : afiller) : Prop := a_bound a = true.

(** bound, and every part is bound *)
Inductive is_sealed : filler -> Prop :=
| sealed_ann a : asealed a -> is_sealed (FAnn a)
| sealed_dumb : is_sealed (FDumb true)
| sealed_union args applied subs : Forall is_sealed subs -> is_sealed (FUnion args applied subs true)
| sealed_type a base : asealed a -> is_sealed (FType true a base)
| sealed_tuplen a subs : asealed a -> Forall is_sealed subs -> is_sealed (FTupleN true a subs)
| sealed_tuplev a sub : asealed a -> is_sealed sub -> is_sealed (FTupleV true a sub)
| sealed_iter rk a elt : asealed a -> is_sealed elt -> is_sealed (FIter rk true a elt)
| sealed_map rk a fk fv : asealed a -> is_sealed fk -> is_sealed fv -> is_sealed (FMap rk true a fk fv)
| sealed_genn a subs : asealed a -> is_sealed (FGenN true a subs).

Lemma abind_bound : forall dflt a a', abind P dflt a = Ok a' -> asealed a'.
Proof.
  intros dflt a a' H. unfold abind in H. oinv H. destruct (a_bound _); [discriminate|].
  destruct (_ && _); [discriminate|]. cbn in H. destruct (a_kind _); try (destruct (_ && _); [discriminate|]; injection H as <-; reflexivity).
  injection H as <-. destruct (ahollow _); reflexivity.
Qed.

Lemma add_validator_bound : forall (a : afiller) v, asealed (add_validator a v) <-> asealed a.
Proof. intros. reflexivity. Qed.

Lemma mapO_forall : forall {A B} (g : A -> outcome B) (Q : B -> Prop) l l',
  (forall a b, In a l -> g a = Ok b -> Q b) -> mapO g l = Ok l' -> Forall Q l'.
Proof.
  induction l as [|a r IH]; intros l' H E; cbn in E.
  - injection E as <-. constructor.
  - oinv E. oinv E. injection E as <-. constructor; [eapply H; [left; reflexivity|eassumption]|].
    apply IH; [|assumption]. intros; eapply H; [right; eassumption|eassumption].
Qed.

Ltac seals := repeat match goal with
  | H : abind _ _ _ = Ok _ |- _ => apply abind_bound in H
  | IH : forall dflt pre f', bind_with P dflt pre ?f = Ok f' -> is_sealed f', H : bind_with P _ _ ?f = Ok _ |- _ => apply IH in H
  end.

Lemma bind_seals : forall f dflt pre f', bind_with P dflt pre f = Ok f' -> is_sealed f'.
Proof.
  induction f using filler_ind'; intros dflt pre f' H'; cbn in H'.
  - oinv H'. oinv H'. injection H' as <-. constructor. eapply abind_bound; eassumption.
  - destruct pre; [|discriminate]. destruct b; [discriminate|]. destruct (style_eqb _ _); [|discriminate].
    injection H' as <-. constructor.
  - destruct b; [discriminate|]. oinv H'. injection H' as <-. constructor.
    eapply mapO_forall; [|eassumption]. intros g g' HI E. rewrite Forall_forall in H. eapply H; eassumption.
  - oinv H'. destruct b; [discriminate|]. oinv H'. injection H' as <-. constructor.
    seals. destruct (ahollow _); assumption.
  - oinv H'. destruct b; [discriminate|]. oinv H'. oinv H'.
    match goal with H : mapO _ _ = Ok ?l |- _ => assert (HF : Forall is_sealed l) end.
    { eapply mapO_forall; [|eassumption]. intros g g' HI E. rewrite Forall_forall in H. eapply H; eassumption. }
    seals.
    destruct (forallb _ _); [|match goal with H : context [if ahollow ?a then Raise _ else _] |- _ => destruct (ahollow a); [discriminate|] end]; injection H' as <-; constructor; try assumption;
      destruct (ahollow _); assumption.
  - oinv H'. destruct b; [discriminate|]. oinv H'. oinv H'. seals.
    destruct (is_hollow _); [|destruct (ahollow _); [discriminate|]]; injection H' as <-; constructor; assumption.
  - oinv H'. destruct b; [discriminate|]. oinv H'. oinv H'. seals.
    destruct (is_hollow _); [|destruct (ahollow _); [discriminate|]]; injection H' as <-; constructor; assumption.
  - oinv H'. destruct b; [discriminate|]. oinv H'. oinv H'. oinv H'. seals.
    destruct (_ && _); [|destruct (ahollow _); [discriminate|]]; injection H' as <-; constructor; assumption.
  - oinv H'. destruct b; [discriminate|]. oinv H'. oinv H'. injection H' as <-. constructor. eapply abind_bound; eassumption.
Qed.

Lemma make_seals : forall dflt h ops f, make_filler P dflt h ops = Ok f -> is_sealed f.
Proof. intros dflt h ops f H. unfold make_filler, bind_filler in H. oinv H. oinv H. eapply bind_seals; eassumption. Qed.

Lemma aapply_sealed : forall a t, asealed a -> aapply P a t = Raise sealed.
Proof. intros a t H. unfold aapply. rewrite H. reflexivity. Qed.

Definition refusal (e : exc) : Prop := exc_cls e = RuntimeError \/ exc_cls e = TypeError.

Lemma apply_sealed : forall f t, is_sealed f -> exists e, refusal e /\ apply P f t = Raise e.
Proof.
  intros f t H. destruct H; cbn; try (rewrite (aapply_sealed _ t H); cbn); eexists; (split; [|reflexivity]);
    (left; reflexivity) || (right; reflexivity).
Qed.

Lemma bind_sealed : forall f dflt, is_sealed f -> exists e, bind_filler P dflt f = Raise e.
Proof.
  intros f dflt H. unfold bind_filler. destruct H; cbn; try (eexists; reflexivity).
  unfold abind. destruct (aapplys P a (a_args a)) as [a1|e] eqn:E; cbn; [|eexists; reflexivity].
  assert (HB : a_bound a1 = true).
  { revert a H E. generalize (a_args a1). intros _ a H. generalize (a_args a). intros ts. revert a H.
    induction ts as [|t r IH]; intros a H E; cbn in E; [injection E as <-; assumption|].
    rewrite (aapply_sealed _ t H) in E. discriminate. }
  rewrite HB. eexists. reflexivity.
Qed.

Lemma sub_sealed : forall f k g, is_sealed f -> sub_filler f k = Ok g -> is_sealed g.
Proof.
  intros f k g H E. destruct k as [n|]; [|injection E as <-; assumption].
  destruct H; cbn in E; try discriminate.
  - destruct (nth_error subs n) eqn:EN; [|discriminate]. injection E as <-. rewrite Forall_forall in H. apply H. eapply nth_error_In; eassumption.
  - destruct (nth_error subs n) eqn:EN; [|discriminate]. injection E as <-. rewrite Forall_forall in H0. apply H0. eapply nth_error_In; eassumption.
  - destruct n; [|discriminate]. injection E as <-. assumption.
  - destruct n; [|discriminate]. injection E as <-. assumption.
  - destruct n as [|[|]]; try discriminate; injection E as <-; assumption.
Qed.

Lemma reach_sealed : forall path f g, is_sealed f -> reach path f = Ok g -> is_sealed g.
Proof.
  induction path as [|k r IH]; intros f g H E; cbn in E; [injection E as <-; assumption|].
  oinv E. eapply IH; [eapply sub_sealed; eassumption|assumption].
Qed.

Lemma apply_at_sealed : forall f k t, is_sealed f -> exists e, apply_at P k t f = Raise e.
Proof.
  intros f k t H. destruct k as [n|]; [|destruct (apply_sealed f t H) as (e & _ & E); exists e; exact E].
  destruct H; cbn; try (eexists; reflexivity).
  - assert (U : exists e, update_nth n (fun sf => apply P sf t) subs = Raise e).
    { revert n. induction H as [|f r HF HR IH]; intros n; [destruct n; eexists; reflexivity|].
      destruct n; cbn; [destruct (apply_sealed f t HF) as (e & _ & ->)|destruct (IH n) as [e ->]]; eexists; reflexivity. }
    destruct U as [e ->]. eexists. reflexivity.
  - assert (U : exists e, update_nth n (fun sf => apply P sf t) subs = Raise e).
    { revert n. induction H0 as [|f r HF HR IH]; intros n; [destruct n; eexists; reflexivity|].
      destruct n; cbn; [destruct (apply_sealed f t HF) as (e & _ & ->)|destruct (IH n) as [e ->]]; eexists; reflexivity. }
    destruct U as [e ->]. eexists. reflexivity.
  - destruct n; [destruct (apply_sealed sub t H0) as (e & _ & ->)|]; eexists; reflexivity.
  - destruct n; [destruct (apply_sealed elt t H0) as (e & _ & ->)|]; eexists; reflexivity.
  - destruct n as [|[|]]; [destruct (apply_sealed fk t H0) as (e & _ & ->)|destruct (apply_sealed fv t H1) as (e & _ & ->)|]; eexists; reflexivity.
Qed.
End Seal.
