(** Mut_main.v -- proofs of the properties stated in Props_Mut.v: C135 to C138: containers that change, while they are filled and afterwards *)

From Verif Require Import Base Mutable Spec_Mutable.
From Verif Require Cont_main.
Open Scope string_scope.
Open Scope list_scope.

Section Proofs.
Context {obj W : Type} (H : Heap obj W).
Notation filling := (filling obj W).

Section Ind.
Variable P : filling -> Prop.
Hypothesis HL : forall f, P (FLeaf f).
Hypothesis HS : forall f e, P e -> P (FSeq f e).
Hypothesis HT : forall f es, Forall P es -> P (FTuple f es).
Hypothesis HM : forall f k v, P k -> P v -> P (FMap f k v).
Fixpoint filling_rect' (F : filling) : P F :=
  match F with
  | FLeaf f => HL f
  | FSeq f e => HS f e (filling_rect' e)
  | FTuple f es => HT f es ((fix all l := match l return Forall P l with [] => Forall_nil _ | e :: r => Forall_cons _ (filling_rect' e) (all r) end) es)
  | FMap f k v => HM f k v (filling_rect' k) (filling_rect' v)
  end.
End Ind.

Implicit Types (elt fk fv : obj -> MO W obj).
Lemma mo_some : forall {A B} (m : MO W A) (k : A -> MO W B) w r w', mo_bind m k w = Some (r, w') ->
  (exists a w1, m w = Some (Ok a, w1) /\ k a w1 = Some (r, w')) \/ (exists e, m w = Some (Raise e, w') /\ r = Raise e).
Proof.
  intros A B m k w r w' E. unfold mo_bind in E. destruct (m w) as [[[a|e] w1]|]; [left; eauto|right|discriminate]. injection E as <- <-. eauto.
Qed.

(** ** More steps change nothing *)
Definition below {A B} (f g : A -> MO W B) : Prop := forall x w r, f x w = Some r -> g x w = Some r.
Lemma bind_below : forall {A B} (m m' : MO W A) (k k' : A -> MO W B) w r,
  (forall r, m w = Some r -> m' w = Some r) -> below k k' -> mo_bind m k w = Some r -> mo_bind m' k' w = Some r.
Proof.
  intros A B m m' k k' w r HM HK E. unfold mo_bind in *. destruct (m w) as [[[a|e] w1]|] eqn:EM; [|rewrite (HM _ eq_refl); assumption|discriminate].
  rewrite (HM _ eq_refl). apply HK. exact E.
Qed.
Lemma each_below : forall elt elt' l, below elt elt' -> forall w r, fill_each elt l w = Some r -> fill_each elt' l w = Some r.
Proof.
  intros elt elt' l HB. induction l as [|x l IH]; intros w r E; [exact E|]. cbn in *. eapply bind_below; [intros r0; apply HB| |exact E].
  intros y w1 r1 E1. eapply bind_below; [intros r0; apply IH| |exact E1]. intros ys w2 r2 E2. exact E2.
Qed.
Lemma live_below : forall elt elt' v w0, below elt elt' -> forall n m i w r, n <= m -> fill_live H n elt v w0 i w = Some r -> fill_live H m elt' v w0 i w = Some r.
Proof.
  intros elt elt' v w0 HB. induction n as [|n IH]; intros m i w r L E; [discriminate|]. destruct m as [|m]; [lia|]. cbn in *.
  destruct (next H v w0 i w) as [[x|]|e]; try exact E. eapply bind_below; [intros r0; apply HB| |exact E].
  intros y w1 r1 E1. eapply bind_below; [intros r0; apply IH; lia| |exact E1]. intros ys w2 r2 E2. exact E2.
Qed.
Lemma rebuilt_below : forall elt elt' v, below elt elt' -> forall n m i y w r, n <= m -> rebuilt H n elt v i y w = Some r -> rebuilt H m elt' v i y w = Some r.
Proof.
  intros elt elt' v HB n m i y w r L E. unfold rebuilt in *. destruct (seq H w v) as [l|]; [|exact E].
  eapply bind_below; [| |exact E].
  - intros r0 E0. destruct (slices H v); [eapply each_below|eapply live_below]; eassumption.
  - intros ys w2 r2 E2. exact E2.
Qed.
Lemma pass_below : forall elt elt' v w0, below elt elt' -> forall n m i w r, n <= m -> pass H n elt v w0 i w = Some r -> pass H m elt' v w0 i w = Some r.
Proof.
  intros elt elt' v w0 HB. induction n as [|n IH]; intros m i w r L E; [discriminate|]. destruct m as [|m]; [lia|]. cbn [pass] in *.
  destruct (next H v w0 i w) as [[x|]|e]; try exact E. eapply bind_below; [intros r0; apply HB| |exact E].
  intros y w1 r1 E1. destruct (same H y x); [eapply IH; [|exact E1]; lia|]. eapply rebuilt_below; [exact HB| |exact E1]. lia.
Qed.
Lemma items_below : forall fk fk' fv fv' v w0, below fk fk' -> below fv fv' -> forall n m i w r, n <= m -> fill_items H n fk fv v w0 i w = Some r -> fill_items H m fk' fv' v w0 i w = Some r.
Proof.
  intros fk fk' fv fv' v w0 HK HV. induction n as [|n IH]; intros m i w r L E; [discriminate|]. destruct m as [|m]; [lia|]. cbn in *.
  destruct (next_item H v w0 i w) as [[[k x]|]|e]; try exact E. eapply bind_below; [intros r0; apply HK| |exact E].
  intros k' w1 r1 E1. eapply bind_below; [intros r0; apply HV| |exact E1].
  intros x' w2 r2 E2. eapply bind_below; [intros r0; apply IH; lia| |exact E2]. intros ys w3 r3 E3. exact E3.
Qed.
Lemma map_below : forall fk fk' fv fv' v, below fk fk' -> below fv fv' -> forall n m w r, n <= m -> pass_map H n fk fv v w = Some r -> pass_map H m fk' fv' v w = Some r.
Proof.
  intros fk fk' fv fv' v HK HV n m w r L E. unfold pass_map in *. eapply bind_below; [| |exact E].
  - intros r0 E0. eapply items_below; [exact HK|exact HV|exact L|exact E0].
  - intros ts w1 r1 E1. exact E1.
Qed.
Lemma zip_below : forall (es es' : list (obj -> MO W obj)), Forall2 below es es' -> forall l w r, fill_zip es l w = Some r -> fill_zip es' l w = Some r.
Proof.
  intros es es' HB. induction HB as [|e e' es es' H1 _ IH]; intros [|x l] w r E; try exact E. cbn in *.
  eapply bind_below; [intros r0; apply H1| |exact E]. intros y w1 r1 E1. eapply bind_below; [intros r0; apply IH| |exact E1]. intros ys w2 r2 E2. exact E2.
Qed.
Lemma tuple_below : forall (es es' : list (obj -> MO W obj)) v, Forall2 below es es' -> forall w r, pass_tuple H es v w = Some r -> pass_tuple H es' v w = Some r.
Proof.
  intros es es' v HB w r E. unfold pass_tuple in *. destruct (seq H w v) as [l|]; [|exact E].
  assert (L : List.length es' = List.length es) by (clear - HB; induction HB; cbn; congruence). rewrite L.
  destruct (negb _); [exact E|]. eapply bind_below; [intros r0; apply zip_below; exact HB| |exact E]. intros ys w2 r2 E2. exact E2.
Qed.
Lemma run_below : forall F n m, n <= m -> below (run H n F) (run H m F).
Proof.
  induction F as [f|f e IH|f es IH|f k v IHk IHv] using filling_rect'; intros n m L x w r E; cbn [run] in *.
  - exact E.
  - eapply bind_below; [intros r0 E0; exact E0| |exact E]. intros v w1 r1 E1. eapply pass_below; [apply IH; exact L|exact L|exact E1].
  - eapply bind_below; [intros r0 E0; exact E0| |exact E]. intros v w1 r1 E1. eapply tuple_below; [|exact E1].
    clear - IH L. induction IH as [|e es H1 _ IH]; constructor; [|exact IH]. apply H1. exact L.
  - eapply bind_below; [intros r0 E0; exact E0| |exact E]. intros y w1 r1 E1. eapply map_below; [apply IHk; exact L|apply IHv; exact L|exact L|exact E1].
Qed.

(** ** What all steps keep *)
Section Keep.
Variable K : W -> W -> Prop.
Hypothesis REFL : forall w, K w w.
Hypothesis TRANS : forall w1 w2 w3, K w1 w2 -> K w2 w3 -> K w1 w3.
Hypothesis MS : forall v l w, K w (snd (make_seq H v l w)).
Hypothesis MM : forall v l w, K w (snd (make_map H v l w)).
Definition mo_keeps {A} (m : MO W A) : Prop := forall w r w', m w = Some (r, w') -> K w w'.
Lemma bind_keeps : forall {A B} (m : MO W A) (k : A -> MO W B), mo_keeps m -> (forall a, mo_keeps (k a)) -> mo_keeps (mo_bind m k).
Proof.
  intros A B m k H1 H2 w r w' E. destruct (mo_some _ _ _ _ _ E) as [(a & w1 & E1 & E2)|(e & E1 & ->)].
  - eapply TRANS; [exact (H1 _ _ _ E1)|exact (H2 _ _ _ _ E2)].
  - exact (H1 _ _ _ E1).
Qed.
Lemma some_keeps : forall {A} (r : outcome A), mo_keeps (fun w => Some (r, w)).
Proof. intros A r w r' w' E. injection E as <- <-. apply REFL. Qed.
Lemma ends_keeps : forall {A} (m : M W A), (forall w, K w (snd (m w))) -> mo_keeps (ends m).
Proof. intros A m HM w r w' E. unfold ends in E. injection E as E. specialize (HM w). rewrite E in HM. exact HM. Qed.
Lemma each_keeps : forall elt l, (forall x, mo_keeps (elt x)) -> mo_keeps (fill_each elt l).
Proof.
  intros elt l HE. induction l as [|x l IH]; [apply some_keeps|]. cbn. apply bind_keeps; [apply HE|]. intros y. apply bind_keeps; [exact IH|]. intros ys. apply some_keeps.
Qed.
Lemma live_keeps : forall elt v w0, (forall x, mo_keeps (elt x)) -> forall n i, mo_keeps (fill_live H n elt v w0 i).
Proof.
  intros elt v w0 HE. induction n as [|n IH]; intros i w r w' E; [discriminate|]. cbn in E.
  destruct (next H v w0 i w) as [[x|]|e]; try (injection E as <- <-; apply REFL).
  revert E. apply bind_keeps; [apply HE|]. intros y. apply bind_keeps; [apply IH|]. intros ys. apply some_keeps.
Qed.
Lemma rebuilt_keeps : forall elt v, (forall x, mo_keeps (elt x)) -> forall n i y, mo_keeps (rebuilt H n elt v i y).
Proof.
  intros elt v HE n i y w r w' E. unfold rebuilt in E. destruct (seq H w v) as [l|]; [|injection E as <- <-; apply REFL].
  revert E. apply bind_keeps; [destruct (slices H v); [apply each_keeps|apply live_keeps]; exact HE|]. intros ys. apply ends_keeps. apply MS.
Qed.
Lemma pass_keeps : forall elt v w0, (forall x, mo_keeps (elt x)) -> forall n i, mo_keeps (pass H n elt v w0 i).
Proof.
  intros elt v w0 HE. induction n as [|n IH]; intros i w r w' E; [discriminate|]. cbn [pass] in E.
  destruct (next H v w0 i w) as [[x|]|e]; try (injection E as <- <-; apply REFL).
  revert E. apply bind_keeps; [apply HE|]. intros y. destruct (same H y x); [apply IH|apply rebuilt_keeps; exact HE].
Qed.
Lemma items_keeps : forall fk fv v w0, (forall x, mo_keeps (fk x)) -> (forall x, mo_keeps (fv x)) -> forall n i, mo_keeps (fill_items H n fk fv v w0 i).
Proof.
  intros fk fv v w0 HK HV. induction n as [|n IH]; intros i w r w' E; [discriminate|]. cbn in E.
  destruct (next_item H v w0 i w) as [[[k x]|]|e]; try (injection E as <- <-; apply REFL).
  revert E. apply bind_keeps; [apply HK|]. intros k'. apply bind_keeps; [apply HV|]. intros x'. apply bind_keeps; [apply IH|]. intros ys. apply some_keeps.
Qed.
Lemma map_keeps : forall fk fv v n, (forall x, mo_keeps (fk x)) -> (forall x, mo_keeps (fv x)) -> mo_keeps (pass_map H n fk fv v).
Proof.
  intros fk fv v n HK HV w r w' E. unfold pass_map in E. revert E. apply bind_keeps; [apply items_keeps; assumption|].
  intros ts w1 r1 w2 E. destruct (items H w1 v) as [l|]; [|injection E as <- <-; apply REFL].
  destruct (forallb _ _); [injection E as <- <-; apply REFL|]. revert E. apply ends_keeps. apply MM.
Qed.
Lemma zip_keeps : forall (es : list (obj -> MO W obj)) l, Forall (fun e => forall x, mo_keeps (e x)) es -> mo_keeps (fill_zip es l).
Proof.
  intros es l HE. revert l. induction HE as [|e es H1 _ IH]; intros [|x l]; try apply some_keeps. cbn.
  apply bind_keeps; [apply H1|]. intros y. apply bind_keeps; [apply IH|]. intros ys. apply some_keeps.
Qed.
Lemma tuple_keeps : forall (es : list (obj -> MO W obj)) v, Forall (fun e => forall x, mo_keeps (e x)) es -> mo_keeps (pass_tuple H es v).
Proof.
  intros es v HE w r w' E. unfold pass_tuple in E. destruct (seq H w v) as [l|]; [|injection E as <- <-; apply REFL].
  destruct (negb _); [injection E as <- <-; apply REFL|]. revert E. apply bind_keeps; [apply zip_keeps; exact HE|].
  intros l'. destruct (forallb _ _); [apply some_keeps|apply ends_keeps; apply MS].
Qed.
Lemma run_keeps : forall F, uses K F -> forall n x, mo_keeps (run H n F x).
Proof.
  induction F as [f|f e IH|f es IH|f k v IHk IHv] using filling_rect'; intros U n x; cbn [run uses] in *.
  - apply ends_keeps. apply U.
  - destruct U as [U1 U2]. apply bind_keeps; [apply ends_keeps; apply U1|]. intros y w r w' E. exact (pass_keeps _ _ _ (IH U2 n) _ _ _ _ _ E).
  - destruct U as [U1 U2]. apply bind_keeps; [apply ends_keeps; apply U1|]. intros y. apply tuple_keeps.
    clear - IH U2. induction IH as [|e es H1 _ IH]; constructor; [apply H1; apply U2|apply IH; apply U2].
  - destruct U as (U1 & U2 & U3). apply bind_keeps; [apply ends_keeps; apply U1|]. intros y. apply map_keeps; auto.
Qed.
End Keep.

Lemma unchanged_refl : forall w, unchanged H w w. Proof. split; auto. Qed.
Lemma unchanged_trans : forall w1 w2 w3, unchanged H w1 w2 -> unchanged H w2 w3 -> unchanged H w1 w3.
Proof. intros w1 w2 w3 [A B] [C D]. split; auto. Qed.
Lemma no_longer_refl : forall w, no_longer H w w. Proof. split; eauto. Qed.
Lemma no_longer_trans : forall w1 w2 w3, no_longer H w1 w2 -> no_longer H w2 w3 -> no_longer H w1 w3.
Proof.
  intros w1 w2 w3 [A B] [C D]. split; intros v l E.
  - destruct (A v l E) as (l1 & E1 & L1). destruct (C v l1 E1) as (l2 & E2 & L2). exists l2. split; [exact E2|lia].
  - destruct (B v l E) as (l1 & E1 & L1). destruct (D v l1 E1) as (l2 & E2 & L2). exists l2. split; [exact E2|lia].
Qed.
Lemma unchanged_longer : forall w w', unchanged H w w' -> no_longer H w w'.
Proof. intros w w' [A B]. split; intros v l E; exists l; split; auto. Qed.
Lemma make_longer : lawful H -> (forall v l w, no_longer H w (snd (make_seq H v l w))) /\ (forall v l w, no_longer H w (snd (make_map H v l w))).
Proof. intros L. split; intros; apply unchanged_longer; apply L. Qed.

(** ** Without changes *)
Hypothesis LA : lawful H.
Lemma same_refl : forall x, same H x x = true. Proof. intros x. apply (la_same H LA). reflexivity. Qed.
Lemma same_sym : forall x y, same H x y = same H y x.
Proof. intros x y. destruct (same H x y) eqn:E1, (same H y x) eqn:E2; try reflexivity; [apply (la_same H LA) in E1; subst y|apply (la_same H LA) in E2; subst y]; rewrite same_refl in *; congruence. Qed.
Definition filled_from (elt : obj -> MO W obj) (v : obj) (l : list obj) (i : nat) : MO W obj :=
  mo_bind (fill_each elt (skipn i l)) (fun l' => if forallb (fun p => same H (fst p) (snd p)) (combine (skipn i l) l')
                                       then fun w => Some (Ok v, w) else ends (make_seq H v (firstn i l ++ l'))).
Lemma skipn_nth : forall {A} (l : list A) i x, nth_error l i = Some x -> skipn i l = x :: skipn (S i) l /\ firstn (S i) l = firstn i l ++ [x].
Proof.
  intros A l. induction l as [|y l IH]; intros [|i] x E; cbn in E; try discriminate.
  - injection E as ->. split; reflexivity.
  - destruct (IH i x E) as [E1 E2]. split; [exact E1|]. change (firstn (S (S i)) (y :: l)) with (y :: firstn (S i) l). rewrite E2. reflexivity.
Qed.
Lemma live_each : forall elt v w0 l, (forall x, mo_keeps (unchanged H) (elt x)) -> seq H w0 v = Some l ->
  forall n i w, seq H w v = Some l -> List.length l - i < n -> fill_live H n elt v w0 i w = fill_each elt (skipn i l) w.
Proof.
  intros elt v w0 l KE E0. induction n as [|n IH]; intros i w E L; [lia|]. cbn [fill_live]. rewrite (la_next H LA v w0 i w l E0 E).
  destruct (nth_error l i) as [x|] eqn:EN.
  - destruct (skipn_nth l i x EN) as [-> _]. cbn [fill_each]. unfold mo_bind. destruct (elt x w) as [[[y|e] w1]|] eqn:EE; try reflexivity.
    rewrite IH; [reflexivity|apply (KE x w _ w1 EE); exact E|]. assert (i < List.length l) by (apply nth_error_Some; congruence). lia.
  - rewrite skipn_all2 by (apply nth_error_None; exact EN). reflexivity.
Qed.
Lemma pass_filled : forall elt v w0 l, (forall x, mo_keeps (unchanged H) (elt x)) -> seq H w0 v = Some l ->
  forall n i w, seq H w v = Some l -> List.length l - i < n -> pass H n elt v w0 i w = filled_from elt v l i w.
Proof.
  intros elt v w0 l KE E0. induction n as [|n IH]; intros i w E L; [lia|]. cbn [pass]. rewrite (la_next H LA v w0 i w l E0 E). unfold filled_from.
  destruct (nth_error l i) as [x|] eqn:EN.
  - destruct (skipn_nth l i x EN) as [ES EF]. rewrite ES. cbn [fill_each]. unfold mo_bind. destruct (elt x w) as [[[y|e] w1]|] eqn:EE; [|reflexivity|reflexivity].
    pose proof (proj1 (KE x w _ w1 EE) v l E) as E1. assert (IL : i < List.length l) by (apply nth_error_Some; congruence).
    destruct (same H y x) eqn:SM.
    + rewrite IH by (auto; lia). unfold filled_from, mo_bind. destruct (fill_each elt (skipn (S i) l) w1) as [[[ys|e] w2]|]; try reflexivity.
      cbn [combine forallb fst snd]. rewrite same_sym, SM. cbn [andb]. apply (la_same H LA) in SM. subst y. rewrite EF, <- app_assoc. reflexivity.
    + unfold rebuilt. rewrite E1. assert (ER : (if slices H v then fill_each elt (skipn (S i) l) else fill_live H (S n) elt v w1 (S i)) w1 = fill_each elt (skipn (S i) l) w1).
      { destruct (slices H v); [reflexivity|]. apply live_each; auto; lia. }
      unfold mo_bind. rewrite ER. destruct (fill_each elt (skipn (S i) l) w1) as [[[ys|e] w2]|]; try reflexivity.
      cbn [combine forallb fst snd]. rewrite same_sym, SM. reflexivity.
  - rewrite skipn_all2 by (apply nth_error_None; exact EN). reflexivity.
Qed.

Lemma items_each : forall fk fv v w0 (l : list (obj * obj)), (forall x, mo_keeps (unchanged H) (fk x)) -> (forall x, mo_keeps (unchanged H) (fv x)) -> items H w0 v = Some l ->
  forall n i w r w', items H w v = Some l -> fill_items H n fk fv v w0 i w = Some (Ok r, w') ->
  in_turn (fun kv w kv' w' => exists w1, fk (fst kv) w = Some (Ok (fst kv'), w1) /\ fv (snd kv) w1 = Some (Ok (snd kv'), w')) (skipn i l) w r w'.
Proof.
  intros fk fv v w0 l KK KV E0. induction n as [|n IH]; intros i w r w' E ER; [discriminate|]. cbn [fill_items] in ER. rewrite (la_next_item H LA v w0 i w l E0 E) in ER.
  destruct (nth_error l i) as [[k x]|] eqn:EN.
  - destruct (skipn_nth l i (k, x) EN) as [-> _].
    destruct (mo_some _ _ _ _ _ ER) as [(k' & w1 & E1 & ER1)|(e & _ & F)]; [|discriminate].
    destruct (mo_some _ _ _ _ _ ER1) as [(x' & w2 & E2 & ER2)|(e & _ & F)]; [|discriminate].
    destruct (mo_some _ _ _ _ _ ER2) as [(r' & w3 & E3 & ER3)|(e & _ & F)]; [|discriminate]. injection ER3 as <- <-.
    pose proof (proj2 (KK _ _ _ _ E1) v l E) as F1. pose proof (proj2 (KV _ _ _ _ E2) v l F1) as F2.
    econstructor; [|exact (IH (S i) w2 r' w3 F2 E3)]. exists w1. split; assumption.
  - injection ER as <- <-. rewrite skipn_all2 by (apply nth_error_None; exact EN). constructor.
Qed.
Lemma each_turn : forall elt l w l' w', fill_each elt l w = Some (Ok l', w') -> in_turn (fun x w y w' => elt x w = Some (Ok y, w')) l w l' w'.
Proof.
  intros elt l. induction l as [|x l IH]; intros w l' w' E; cbn in E; [injection E as <- <-; constructor|].
  destruct (mo_some _ _ _ _ _ E) as [(y & w1 & E1 & E2)|(e & _ & F)]; [|discriminate].
  destruct (mo_some _ _ _ _ _ E2) as [(ys & w2 & E3 & E4)|(e & _ & F)]; [|discriminate]. injection E4 as <- <-.
  econstructor; [exact E1|apply IH; exact E3].
Qed.
Lemma turn_length : forall {A} step (l : list A) (w : W) l' w', in_turn step l w l' w' -> List.length l' = List.length l.
Proof. intros A step l w l' w' T. induction T; cbn; congruence. Qed.
Lemma turn_impl : forall {A} (s1 s2 : A -> W -> A -> W -> Prop) l w l' w', (forall x w y w', s1 x w y w' -> s2 x w y w') -> in_turn s1 l w l' w' -> in_turn s2 l w l' w'.
Proof. intros A s1 s2 l w l' w' HS T. induction T; econstructor; eauto. Qed.
Lemma all_same : forall l l', List.length l' = List.length l -> (forallb (fun p => same H (fst p) (snd p)) (combine l l') = true <-> l' = l).
Proof.
  induction l as [|x l IH]; intros [|y l'] L; try discriminate; [cbn; tauto|]. cbn. rewrite andb_true_iff, (la_same H LA), IH by (injection L; auto).
  split; [intros [-> ->]; reflexivity|intros F; injection F as -> ->; auto].
Qed.
Lemma all_same_items : forall l l' : list (obj * obj), List.length l' = List.length l ->
  (forallb (fun p => same H (fst (fst p)) (fst (snd p)) && same H (snd (fst p)) (snd (snd p))) (combine l l') = true <-> l' = l).
Proof.
  induction l as [|[k x] l IH]; intros [|[k' x'] l'] L; try discriminate; [cbn; tauto|]. cbn. rewrite !andb_true_iff, !(la_same H LA), IH by (injection L; auto).
  split; [intros [[-> ->] ->]; reflexivity|intros F; injection F as -> -> ->; auto].
Qed.
(** what a pass without changes gives *)
Lemma pass_result : forall elt v l n w y w', (forall x, mo_keeps (unchanged H) (elt x)) -> seq H w v = Some l -> pass H n elt v w 0 w = Some (Ok y, w') ->
  exists l' w2, in_turn (fun x w y w' => elt x w = Some (Ok y, w')) l w l' w2 /\
    ((l' = l /\ y = v /\ w' = w2) \/ (l' <> l /\ make_seq H v l' w2 = (Ok y, w'))).
Proof.
  intros elt v l n w y w' KE E EP.
  assert (E1 : pass H (n + S (List.length l)) elt v w 0 w = Some (Ok y, w')) by (eapply pass_below; [intros x w1 r F; exact F| |exact EP]; lia).
  rewrite (pass_filled elt v w l KE E _ 0 w E) in E1 by lia. unfold filled_from in E1. cbn [skipn firstn app] in E1.
  destruct (mo_some _ _ _ _ _ E1) as [(l' & w2 & EF & E2)|(e & _ & F)]; [|discriminate].
  pose proof (each_turn _ _ _ _ _ EF) as T. exists l', w2. split; [exact T|]. pose proof (all_same l l' (turn_length _ _ _ _ _ T)) as AS.
  destruct (forallb _ _).
  - injection E2 as <- <-. left. repeat split. apply AS. reflexivity.
  - right. split; [intros F; apply AS in F; discriminate|]. unfold ends in E2. congruence.
Qed.
Lemma map_result : forall fk fv v (l : list (obj * obj)) n w y w', (forall x, mo_keeps (unchanged H) (fk x)) -> (forall x, mo_keeps (unchanged H) (fv x)) -> items H w v = Some l ->
  pass_map H n fk fv v w = Some (Ok y, w') ->
  exists l' w2, in_turn (fun kv w kv' w' => exists w1, fk (fst kv) w = Some (Ok (fst kv'), w1) /\ fv (snd kv) w1 = Some (Ok (snd kv'), w')) l w l' w2 /\
    ((l' = l /\ y = v /\ w' = w2) \/ (l' <> l /\ make_map H v l' w2 = (Ok y, w'))).
Proof.
  intros fk fv v l n w y w' KK KV E EP. unfold pass_map in EP.
  destruct (mo_some _ _ _ _ _ EP) as [(l' & w2 & EF & E2)|(e & _ & F)]; [|discriminate].
  pose proof (items_each fk fv v w l KK KV E n 0 w l' w2 E EF) as T. cbn [skipn] in T.
  assert (E3 : items H w2 v = Some l) by (apply (items_keeps (unchanged H) unchanged_refl unchanged_trans fk fv v w KK KV _ _ _ _ _ EF); exact E).
  rewrite E3 in E2. exists l', w2. split; [exact T|]. pose proof (all_same_items l l' (turn_length _ _ _ _ _ T)) as AS.
  destruct (forallb _ _).
  - injection E2 as <- <-. left. repeat split. apply AS. reflexivity.
  - right. split; [intros F; apply AS in F; discriminate|]. unfold ends in E2. congruence.
Qed.

(** ** Types *)
Lemma fits_later : forall s w w' x, unchanged H w w' -> fits H s w x -> fits H s w' x.
Proof.
  fix IH 1. intros [Q|Q e|Q es|Q k v] w w' x U F; cbn in *.
  - exact F.
  - destruct F as (HQ & l & E & HF). split; [exact HQ|]. exists l. split; [apply U; exact E|]. eapply Forall_impl; [|exact HF]. intros y. apply IH. exact U.
  - destruct F as (HQ & l & E & HF). split; [exact HQ|]. exists l. split; [apply U; exact E|]. clear E HQ.
    revert l HF. induction es as [|s es IHes]; intros [|y l] HF; try exact HF. destruct HF as [H1 H2]. split; [eapply IH; eassumption|]. apply IHes. exact H2.
  - destruct F as (HQ & l & E & HF). split; [exact HQ|]. exists l. split; [apply U; exact E|]. eapply Forall_impl; [|exact HF].
    intros [a b] [H1 H2]. split; eapply IH; eassumption.
Qed.
Lemma turn_fits : forall {A} (step : A -> W -> A -> W -> Prop) (Fit : W -> A -> Prop) l w l' w',
  (forall x w y w', step x w y w' -> unchanged H w w' /\ Fit w' y) -> (forall w w' x, unchanged H w w' -> Fit w x -> Fit w' x) ->
  in_turn step l w l' w' -> unchanged H w w' /\ Forall (Fit w') l'.
Proof.
  intros A step Fit l w l' w' HS HF T. induction T as [|x l w y w1 l' w' S1 _ [U2 F2]]; [split; [apply unchanged_refl|constructor]|].
  destruct (HS _ _ _ _ S1) as [U1 F1]. split; [eapply unchanged_trans; eassumption|]. constructor; [eapply HF; eassumption|exact F2].
Qed.
Lemma run_unchanged : forall F, uses (unchanged H) F -> forall n x, mo_keeps (unchanged H) (run H n F x).
Proof. intros F U. apply run_keeps; [apply unchanged_refl|apply unchanged_trans|apply LA|apply LA|exact U]. Qed.
Lemma zip_fits : forall n (es : list filling) ss,
  Forall (fun e => forall s, uses (unchanged H) e -> promises H e s -> forall x w y w', run H n e x w = Some (Ok y, w') -> fits H s w' y) es ->
  (fix all l := match l with [] => True | e :: r => uses (unchanged H) e /\ all r end) es ->
  (fix all2 (es : list filling) ss := match es, ss with [], [] => True | e :: es, s :: ss => promises H e s /\ all2 es ss | _, _ => False end) es ss ->
  forall l w l' w', List.length l = List.length es -> fill_zip (map (fun e => run H n e) es) l w = Some (Ok l', w') ->
  unchanged H w w' /\ List.length l' = List.length l /\
  (fix all2 ss l := match ss, l with [], [] => True | s :: ss, y :: l => fits H s w' y /\ all2 ss l | _, _ => False end) ss l'.
Proof.
  intros n es ss HE. revert ss. induction HE as [|e es H1 HE IH]; intros [|s ss] U PR l w l' w' L EZ; try (exfalso; exact PR).
  - destruct l; [|discriminate]. cbn in EZ. injection EZ as <- <-. split; [apply unchanged_refl|]. split; [reflexivity|exact I].
  - destruct U as [U1 U2]. destruct PR as [PR1 PR2]. destruct l as [|x l]; [discriminate|]. cbn in EZ.
    destruct (mo_some _ _ _ _ _ EZ) as [(y & w1 & E1 & E2)|(ex & _ & F)]; [|discriminate].
    destruct (mo_some _ _ _ _ _ E2) as [(ys & w2 & E3 & E4)|(ex & _ & F)]; [|discriminate]. injection E4 as <- <-.
    destruct (IH ss U2 PR2 l w1 ys w2 ltac:(cbn in L; lia) E3) as (A & B & C).
    split; [eapply unchanged_trans; [exact (run_unchanged e U1 n x _ _ _ E1)|exact A]|]. split; [cbn; congruence|].
    split; [|exact C]. eapply fits_later; [exact A|]. eapply H1; eassumption.
Qed.
Lemma all2_later : forall ss w w' l, unchanged H w w' ->
  (fix all2 ss l := match ss, l with [], [] => True | s :: ss, y :: l => fits H s w y /\ all2 ss l | _, _ => False end) ss l ->
  (fix all2 ss l := match ss, l with [], [] => True | s :: ss, y :: l => fits H s w' y /\ all2 ss l | _, _ => False end) ss l.
Proof.
  induction ss as [|s ss IH]; intros w w' [|y l] U F; try exact F. destruct F as [F1 F2]. split; [eapply fits_later; eassumption|]. eapply IH; eassumption.
Qed.
Lemma run_fits : keeps_items H -> forall n F s, uses (unchanged H) F -> promises H F s ->
  forall x w y w', run H n F x w = Some (Ok y, w') -> fits H s w' y.
Proof.
  intros KI n F. induction F as [f|f e IH|f es IH|f k v IHk IHv] using filling_rect'; intros [Q|Q se|Q ss|Q sk sv] U PR x w y w' E; try (exfalso; exact PR).
  - cbn in *. unfold ends in E. injection E as E. eapply PR; exact E.
  - cbn [uses promises run] in *. destruct U as [U1 U2]. destruct PR as (P1 & P2 & P3).
    destruct (mo_some _ _ _ _ _ E) as [(v & w1 & E1 & E2)|(ex & _ & F)]; [|discriminate]. unfold ends in E1. injection E1 as E1.
    destruct (P1 _ _ _ _ E1) as (Qv & l & EL).
    destruct (pass_result _ _ l _ _ _ _ (run_unchanged e U2 n) EL E2) as (l' & w2 & T & R).
    destruct (turn_fits _ (fits H se) _ _ _ _ (fun x w y w' S => conj (run_unchanged e U2 n x w _ w' S) (IH se U2 P3 x w y w' S)) (fits_later se) T) as [U3 F3].
    cbn. destruct R as [(-> & -> & ->)|(NE & EM)].
    + split; [exact Qv|]. exists l. split; [apply U3; exact EL|exact F3].
    + split; [eapply P2; eassumption|]. exists l'.
      assert (NN : l' <> []) by (intros ->; pose proof (turn_length _ _ _ _ _ T) as TL; destruct l; [congruence|discriminate]).
      destruct (la_make H LA _ _ _ _ _ EM NN) as (_ & _ & EY). split; [exact EY|].
      pose proof (la_make_keeps H LA v l' w2) as U4. rewrite EM in U4. eapply Forall_impl; [|exact F3]. intros z. apply fits_later. exact U4.
  - cbn [uses promises run] in *. destruct U as [U1 U2]. destruct PR as (P1 & P2 & P3).
    destruct (mo_some _ _ _ _ _ E) as [(v & w1 & E1 & E2)|(ex & _ & F)]; [|discriminate]. unfold ends in E1. injection E1 as E1.
    destruct (P1 _ _ _ _ E1) as (Qv & l & EL). unfold pass_tuple in E2. rewrite EL, map_length in E2.
    destruct (Nat.eqb (List.length l) (List.length es)) eqn:LEN; [|discriminate]. apply Nat.eqb_eq in LEN. cbn [negb] in E2.
    destruct (mo_some _ _ _ _ _ E2) as [(l' & w2 & E3 & E4)|(ex & _ & F)]; [|discriminate].
    destruct (zip_fits n es ss IH U2 P3 l w1 l' w2 LEN E3) as (A & B & C). pose proof (all_same l l' B) as AS. cbn [fits].
    destruct (forallb _ _).
    + injection E4 as <- <-. split; [exact Qv|]. exists l. split; [apply A; exact EL|]. rewrite (proj1 AS eq_refl) in C. exact C.
    + unfold ends in E4. injection E4 as E4. split; [eapply P2; eassumption|]. exists l'.
      assert (NN : l' <> []) by (intros ->; destruct l; [assert (false = true) by (apply AS; reflexivity); discriminate|discriminate]).
      destruct (la_make H LA _ _ _ _ _ E4 NN) as (_ & _ & EY). split; [exact EY|].
      pose proof (la_make_keeps H LA v l' w2) as U4. rewrite E4 in U4. eapply all2_later; [exact U4|exact C].
  - cbn [uses promises run] in *. destruct U as (U1 & U2 & U3). destruct PR as (P1 & P2 & P3 & P4).
    destruct (mo_some _ _ _ _ _ E) as [(v0 & w1 & E1 & E2)|(ex & _ & F)]; [|discriminate]. unfold ends in E1. injection E1 as E1.
    destruct (P1 _ _ _ _ E1) as (Qv & l & EL).
    destruct (map_result _ _ _ l _ _ _ _ (run_unchanged k U2 n) (run_unchanged v U3 n) EL E2) as (l' & w2 & T & R).
    assert (TF : unchanged H w1 w2 /\ Forall (fun kv => fits H sk w2 (fst kv) /\ fits H sv w2 (snd kv)) l').
    { refine (turn_fits _ (fun w kv => fits H sk w (fst kv) /\ fits H sv w (snd kv)) _ _ _ _ _ _ T).
      - intros [a b] w3 [a' b'] w4 (w5 & S1 & S2). cbn [fst snd] in *. pose proof (run_unchanged k U2 n _ _ _ _ S1) as Ua. pose proof (run_unchanged v U3 n _ _ _ _ S2) as Ub.
        split; [eapply unchanged_trans; eassumption|]. split; [eapply fits_later; [exact Ub|]; eapply IHk; eassumption|eapply IHv; eassumption].
      - intros w3 w4 kv U [A B]. split; eapply fits_later; eassumption. }
    destruct TF as [U4 F4]. cbn [fits]. destruct R as [(-> & -> & ->)|(NE & EM)].
    + split; [exact Qv|]. exists l. split; [apply U4; exact EL|exact F4].
    + split; [eapply P2; eassumption|]. exists l'. split; [eapply KI; exact EM|].
      pose proof (la_make_map_keeps H LA v0 l' w2) as U5. rewrite EM in U5. eapply Forall_impl; [|exact F4]. intros z [A B]. split; eapply fits_later; eassumption.
Qed.

(** ** Ends *)
Definition family (E : nat -> obj -> MO W obj) : Prop :=
  (forall n m, n <= m -> below (E n) (E m)) /\ (forall x w, exists n r, E n x w = Some r) /\ (forall n x, mo_keeps (no_longer H) (E n x)).
Lemma bind_ends : forall {A B} (m : nat -> MO W A) (k : nat -> A -> MO W B) w,
  (forall i j r, i <= j -> m i w = Some r -> m j w = Some r) -> (forall i j, i <= j -> below (k i) (k j)) ->
  (exists n r, m n w = Some r) -> (forall a w' n, m n w = Some (Ok a, w') -> exists n r, k n a w' = Some r) -> exists n r, mo_bind (m n) (k n) w = Some r.
Proof.
  intros A B m k w M1 M2 (n & [[a|e] w1] & E) HK.
  - destruct (HK a w1 n E) as (n2 & r & E2). exists (n + n2), r. unfold mo_bind. rewrite (M1 n (n + n2) _ ltac:(lia) E). eapply M2; [|exact E2]. lia.
  - exists n, (Raise e, w1). unfold mo_bind. rewrite E. reflexivity.
Qed.
Lemma each_ends : forall E l, family E -> forall w, exists n r, fill_each (E n) l w = Some r.
Proof.
  intros E l (M & T & _). induction l as [|x l IH]; intros w; [exists 0; eexists; reflexivity|].
  cbn [fill_each]. apply (bind_ends (fun n => E n x) (fun n y => mo_bind (fill_each (E n) l) (fun ys w => Some (Ok (y :: ys), w)))).
  - intros i j r L E1. eapply M; eassumption.
  - intros i j L y w1 r E1. eapply bind_below; [intros r0; apply each_below; apply M; exact L| |exact E1]. intros ys w2 r2 E2. exact E2.
  - apply T.
  - intros y w1 _ _. apply (bind_ends (fun n => fill_each (E n) l) (fun n ys w => Some (Ok (y :: ys), w))).
    + intros i j r L E1. eapply each_below; [apply M; exact L|exact E1].
    + intros i j L ys w2 r E1. exact E1.
    + apply IH.
    + intros ys w2 _ _. exists 0. eexists. reflexivity.
Qed.
Definition left_of (w : W) (v : obj) (i : nat) : nat := match seq H w v with Some l => List.length l - i | None => 0 end.
Lemma live_ends : forall E v w0, family E -> forall k i w, left_of w v i <= k -> exists n r, fill_live H n (E n) v w0 i w = Some r.
Proof.
  intros E v w0 (M & T & KE). induction k as [|k IH]; intros i w L.
  - exists 1. cbn. destruct (next H v w0 i w) as [[x|]|e] eqn:EN; try (eexists; reflexivity).
    destruct (la_next_there H LA _ _ _ _ _ EN) as (l & E1 & IL). unfold left_of in L. rewrite E1 in L. lia.
  - destruct (next H v w0 i w) as [[x|]|e] eqn:EN; try (exists 1; cbn; rewrite EN; eexists; reflexivity).
    destruct (la_next_there H LA _ _ _ _ _ EN) as (l & E1 & IL).
    destruct (bind_ends (fun n => E n x) (fun n y => mo_bind (fill_live H n (E n) v w0 (S i)) (fun ys w => Some (Ok (y :: ys), w))) w) as (n & r & ER).
    + intros a b r0 L0 E0. eapply M; eassumption.
    + intros a b L0 y w1 r0 E0. eapply bind_below; [intros r1; apply live_below; [apply M; exact L0|exact L0]| |exact E0]. intros ys w2 r2 E2. exact E2.
    + apply T.
    + intros y w1 n E0. apply (bind_ends (fun n => fill_live H n (E n) v w0 (S i)) (fun n ys w => Some (Ok (y :: ys), w))).
      * intros a b r0 L0 E2. eapply live_below; [apply M; exact L0|exact L0|exact E2].
      * intros a b L0 ys w2 r0 E2. exact E2.
      * apply IH. destruct (proj1 (KE _ _ _ _ _ E0) v l E1) as (l1 & F1 & F2). unfold left_of in *. rewrite E1 in L. rewrite F1. lia.
      * intros ys w2 _ _. exists 0. eexists. reflexivity.
    + assert (LS : n <= S n) by lia. exists (S n), r. cbn [fill_live]. rewrite EN. eapply bind_below; [intros r0; apply M; exact LS| |exact ER].
      intros y w1 r1 E0. eapply bind_below; [intros r2; apply live_below; [apply M; exact LS|apply Nat.le_refl]| |exact E0]. intros ys w2 r2 E2. exact E2.
Qed.
Lemma rebuilt_ends : forall E v i y w, family E -> exists n r, rebuilt H n (E n) v i y w = Some r.
Proof.
  intros E v i y w FE. unfold rebuilt. destruct (seq H w v) as [l|] eqn:EL; [|exists 0; eexists; reflexivity].
  pose proof FE as (M & T & KE).
  apply (bind_ends (fun n => if slices H v then fill_each (E n) (skipn (S i) l) else fill_live H n (E n) v w (S i)) (fun n r => ends (make_seq H v (firstn i l ++ y :: r)))).
  - intros a b r L0 E0. destruct (slices H v); [eapply each_below; [apply M; exact L0|exact E0]|eapply live_below; [apply M; exact L0|exact L0|exact E0]].
  - intros a b L0 ys w2 r0 E2. exact E2.
  - destruct (slices H v); [apply each_ends; exact FE|]. eapply live_ends; [exact FE|]. apply Nat.le_refl.
  - intros r w' _ _. exists 0. eexists. reflexivity.
Qed.
Lemma pass_ends : forall E v w0, family E -> forall k i w, left_of w v i <= k -> exists n r, pass H n (E n) v w0 i w = Some r.
Proof.
  intros E v w0 FE. pose proof FE as (M & T & KE). induction k as [|k IH]; intros i w L.
  - exists 1. cbn [pass]. destruct (next H v w0 i w) as [[x|]|e] eqn:EN; try (eexists; reflexivity).
    destruct (la_next_there H LA _ _ _ _ _ EN) as (l & E1 & IL). unfold left_of in L. rewrite E1 in L. lia.
  - destruct (next H v w0 i w) as [[x|]|e] eqn:EN; try (exists 1; cbn [pass]; rewrite EN; eexists; reflexivity).
    destruct (la_next_there H LA _ _ _ _ _ EN) as (l & E1 & IL).
    destruct (bind_ends (fun n => E n x) (fun n y => if same H y x then pass H n (E n) v w0 (S i) else rebuilt H n (E n) v i y) w) as (n & r & ER).
    + intros a b r0 L0 E0. eapply M; eassumption.
    + intros a b L0 y w1 r0 E0. destruct (same H y x); [eapply pass_below; [apply M; exact L0|exact L0|exact E0]|eapply rebuilt_below; [apply M; exact L0|exact L0|exact E0]].
    + apply T.
    + intros y w1 n E0. destruct (same H y x); [|apply rebuilt_ends; exact FE]. apply IH.
      destruct (proj1 (KE _ _ _ _ _ E0) v l E1) as (l1 & F1 & F2). unfold left_of in *. rewrite E1 in L. rewrite F1. lia.
    + assert (LS : n <= S n) by lia. exists (S n), r. cbn [pass]. rewrite EN. eapply bind_below; [intros r0; apply M; exact LS| |exact ER].
      intros y w1 r1 E0. destruct (same H y x); [eapply pass_below; [apply M; exact LS|apply Nat.le_refl|exact E0]|eapply rebuilt_below; [apply M; exact LS|exact LS|exact E0]].
Qed.
Definition items_left (w : W) (v : obj) (i : nat) : nat := match items H w v with Some l => List.length l - i | None => 0 end.
Lemma items_ends : forall Ek Ev v w0, family Ek -> family Ev -> forall k i w, items_left w v i <= k -> exists n r, fill_items H n (Ek n) (Ev n) v w0 i w = Some r.
Proof.
  intros Ek Ev v w0 (M & T & KE) (M' & T' & KE'). induction k as [|k IH]; intros i w L.
  - exists 1. cbn. destruct (next_item H v w0 i w) as [[[a b]|]|e] eqn:EN; try (eexists; reflexivity).
    destruct (la_next_item_there H LA _ _ _ _ _ EN) as (l & E1 & IL). unfold items_left in L. rewrite E1 in L. lia.
  - destruct (next_item H v w0 i w) as [[[a x]|]|e] eqn:EN; try (exists 1; cbn; rewrite EN; eexists; reflexivity).
    destruct (la_next_item_there H LA _ _ _ _ _ EN) as (l & E1 & IL).
    assert (MONO : forall i j a', i <= j -> below (fun x' => mo_bind (fill_items H i (Ek i) (Ev i) v w0 (S a')) (fun r w => Some (Ok (x' :: r), w)))
                                          (fun x' => mo_bind (fill_items H j (Ek j) (Ev j) v w0 (S a')) (fun r w => Some (Ok (x' :: r), w)))).
    { intros p q a' L0 x' w1 r1 E0. eapply bind_below; [intros r2; apply items_below; [apply M; exact L0|apply M'; exact L0|exact L0]| |exact E0]. intros ys w2 r2 E2. exact E2. }
    destruct (bind_ends (fun n => Ek n a) (fun n k' => mo_bind (Ev n x) (fun x' => mo_bind (fill_items H n (Ek n) (Ev n) v w0 (S i)) (fun r w => Some (Ok ((k', x') :: r), w)))) w) as (n & r & ER).
    + intros p q r0 L0 E0. eapply M; eassumption.
    + intros p q L0 k' w1 r0 E0. eapply bind_below; [intros r1; apply M'; exact L0| |exact E0]. intros x' w2 r2 E2. eapply (MONO p q i L0 (k', x')). exact E2.
    + apply T.
    + intros k' w1 n E0. destruct (proj2 (KE _ _ _ _ _ E0) v l E1) as (l1 & F1 & F2).
      apply (bind_ends (fun n => Ev n x) (fun n x' => mo_bind (fill_items H n (Ek n) (Ev n) v w0 (S i)) (fun r w => Some (Ok ((k', x') :: r), w)))).
      * intros p q r0 L0 E2. eapply M'; eassumption.
      * intros p q L0 x' w2 r2 E2. eapply (MONO p q i L0 (k', x')). exact E2.
      * apply T'.
      * intros x' w2 n2 E2. destruct (proj2 (KE' _ _ _ _ _ E2) v l1 F1) as (l2 & G1 & G2).
        apply (bind_ends (fun n => fill_items H n (Ek n) (Ev n) v w0 (S i)) (fun n r w => Some (Ok ((k', x') :: r), w))).
        -- intros p q r0 L0 E3. eapply items_below; [apply M; exact L0|apply M'; exact L0|exact L0|exact E3].
        -- intros p q L0 ys w3 r0 E3. exact E3.
        -- apply IH. unfold items_left in *. rewrite E1 in L. rewrite G1. lia.
        -- intros ys w3 _ _. exists 0. eexists. reflexivity.
    + assert (LS : n <= S n) by lia. exists (S n), r. cbn [fill_items]. rewrite EN. eapply bind_below; [intros r0; apply M; exact LS| |exact ER].
      intros k' w1 r1 E0. eapply bind_below; [intros r2; apply M'; exact LS| |exact E0]. intros x' w2 r2 E2.
      eapply bind_below; [intros r3; apply items_below; [apply M; exact LS|apply M'; exact LS|apply Nat.le_refl]| |exact E2]. intros ys w3 r3 E3. exact E3.
Qed.
Lemma zip_ends : forall (Es : list (nat -> obj -> MO W obj)), Forall family Es -> forall l w, exists n r, fill_zip (map (fun E => E n) Es) l w = Some r.
Proof.
  intros Es FE. induction FE as [|E Es (M & T & KE) FE IH]; intros [|x l] w; try (exists 0; eexists; reflexivity). cbn [map fill_zip].
  assert (ZB : forall i j, i <= j -> Forall2 below (map (fun E => E i) Es) (map (fun E => E j) Es)).
  { intros i j L. clear - FE L. induction FE as [|E Es (M & _) _ IH]; constructor; [apply M; exact L|exact IH]. }
  apply (bind_ends (fun n => E n x) (fun n y => mo_bind (fill_zip (map (fun E => E n) Es) l) (fun ys w => Some (Ok (y :: ys), w)))).
  - intros i j r L E1. eapply M; eassumption.
  - intros i j L y w1 r E1. eapply bind_below; [intros r0; apply zip_below; apply ZB; exact L| |exact E1]. intros ys w2 r2 E2. exact E2.
  - apply T.
  - intros y w1 _ _. apply (bind_ends (fun n => fill_zip (map (fun E => E n) Es) l) (fun n ys w => Some (Ok (y :: ys), w))).
    + intros i j r L E1. eapply zip_below; [apply ZB; exact L|exact E1].
    + intros i j L ys w2 r E1. exact E1.
    + apply IH.
    + intros ys w2 _ _. exists 0. eexists. reflexivity.
Qed.
Lemma run_family : forall F, uses (no_longer H) F -> family (fun n => run H n F).
Proof.
  assert (KEEP : forall F, uses (no_longer H) F -> forall n x, mo_keeps (no_longer H) (run H n F x)).
  { intros F U. apply run_keeps; [apply no_longer_refl|apply no_longer_trans|apply (make_longer LA)|apply (make_longer LA)|exact U]. }
  intros F U. split; [intros n m L; apply run_below; exact L|]. split; [|apply KEEP; exact U].
  induction F as [f|f e IH|f es IH|f k v IHk IHv] using filling_rect'; intros x w; cbn [run].
  - exists 0. eexists. reflexivity.
  - destruct U as [U1 U2]. apply (bind_ends (fun n => ends (f x)) (fun n v w => pass H n (run H n e) v w 0 w)).
    + intros i j r L E. exact E.
    + intros i j L y w1 r E. eapply pass_below; [apply run_below; exact L|exact L|exact E].
    + exists 0. eexists. reflexivity.
    + intros v w1 _ _. eapply (pass_ends (fun n => run H n e)); [|apply Nat.le_refl].
      split; [intros n m L; apply run_below; exact L|]. split; [apply IH; exact U2|apply KEEP; exact U2].
  - destruct U as [U1 U2]. apply (bind_ends (fun n => ends (f x)) (fun n => pass_tuple H (map (fun e => run H n e) es))).
    + intros i j r L E. exact E.
    + intros i j L y w1 r E. eapply tuple_below; [|exact E]. clear - L. induction es; constructor; [apply run_below; exact L|exact IHes].
    + exists 0. eexists. reflexivity.
    + intros v w1 _ _. unfold pass_tuple. destruct (seq H w1 v) as [l|]; [|exists 0; eexists; reflexivity].
      destruct (negb (Nat.eqb (List.length l) (List.length es))) eqn:NL; [exists 0, (Raise (mkexc ValueError "must be a tuple of another length"), w1); rewrite map_length, NL; reflexivity|].
      assert (FE : Forall family (map (fun e n => run H n e) es)).
      { clear - IH U2 KEEP. induction IH as [|e es H1 _ IH]; constructor; [|apply IH; apply U2].
        split; [intros n m L; apply run_below; exact L|]. split; [apply H1; apply U2|apply KEEP; apply U2]. }
      assert (MM : forall n, map (fun E : nat -> obj -> MO W obj => E n) (map (fun e n => run H n e) es) = map (fun e => run H n e) es) by (intros n; rewrite map_map; reflexivity).
      destruct (bind_ends (fun n => fill_zip (map (fun E => E n) (map (fun e n => run H n e) es)) l)
             (fun n l' => if forallb (fun p => same H (fst p) (snd p)) (combine l l') then fun w => Some (Ok v, w) else ends (make_seq H v l')) w1) as (n & r & ER).
      * intros i j r L E. rewrite MM in *. eapply zip_below; [|exact E]. clear - L. induction es; constructor; [apply run_below; exact L|exact IHes].
      * intros i j L y w2 r E. exact E.
      * apply zip_ends. exact FE.
      * intros l' w2 _ _. exists 0. destruct (forallb _ _); eexists; reflexivity.
      * exists n, r. rewrite map_length, NL. rewrite MM in ER. exact ER.
  - destruct U as (U1 & U2 & U3). apply (bind_ends (fun n => ends (f x)) (fun n => pass_map H n (run H n k) (run H n v))).
    + intros i j r L E. exact E.
    + intros i j L y w1 r E. eapply map_below; [apply run_below; exact L|apply run_below; exact L|exact L|exact E].
    + exists 0. eexists. reflexivity.
    + intros y w1 _ _. unfold pass_map.
      apply (bind_ends (fun n => fill_items H n (run H n k) (run H n v) y w1 0) (fun n tuples w' => match items H w' y with
        | None => Some (Raise (mkexc AttributeError "items"), w')
        | Some l => if forallb (fun p => same H (fst (fst p)) (fst (snd p)) && same H (snd (fst p)) (snd (snd p))) (combine l tuples)
                    then Some (Ok y, w') else ends (make_map H y tuples) w' end)).
      * intros i j r L E. eapply items_below; [apply run_below; exact L|apply run_below; exact L|exact L|exact E].
      * intros i j L ts w2 r E. exact E.
      * eapply (items_ends (fun n => run H n k) (fun n => run H n v)); [| |apply Nat.le_refl];
          (split; [intros n m L; apply run_below; exact L|]; split; [auto|apply KEEP; assumption]).
      * intros ts w2 _ _. exists 0. destruct (items H w2 y) as [l|]; [|eexists; reflexivity]. destruct (forallb _ _); eexists; reflexivity.
Qed.
Lemma each_mapM : forall (g : obj -> M W obj) l w, fill_each (fun x => ends (g x)) l w = Some (mapM g l w).
Proof.
  intros g l. induction l as [|x l IH]; intros w; [reflexivity|]. cbn [fill_each mapM]. unfold mo_bind at 1. unfold ends at 1. unfold bind at 1.
  destruct (g x w) as [[y|e] w1]; [|reflexivity]. unfold mo_bind. rewrite IH. unfold bind. destruct (mapM g l w1) as [[ys|e] w2]; reflexivity.
Qed.
Lemma live_items : forall (gk gv : obj -> M W obj) v w0 (l : list (obj * obj)), (forall x w, unchanged H w (snd (gk x w))) -> (forall x w, unchanged H w (snd (gv x w))) -> items H w0 v = Some l ->
  forall n i w, items H w v = Some l -> List.length l - i < n ->
  fill_items H n (fun x => ends (gk x)) (fun x => ends (gv x)) v w0 i w = Some (mapM (fun kv : obj * obj => let* k := gk (fst kv) in let* x := gv (snd kv) in ret (k, x)) (skipn i l) w).
Proof.
  intros gk gv v w0 l KK KV E0. induction n as [|n IH]; intros i w E L; [lia|]. cbn [fill_items]. rewrite (la_next_item H LA v w0 i w l E0 E).
  destruct (nth_error l i) as [[k x]|] eqn:EN.
  - destruct (skipn_nth l i (k, x) EN) as [-> _]. cbn [mapM]. unfold mo_bind, ends, bind. cbn [fst snd]. specialize (KK k w). destruct (gk k w) as [[k'|e] w1]; [|reflexivity].
    specialize (KV x w1). destruct (gv x w1) as [[x'|e] w2]; [|reflexivity]. cbn [snd] in *. unfold ret.
    assert (IL : i < List.length l) by (apply nth_error_Some; congruence).
    rewrite IH; [|apply KV; apply KK; exact E|lia]. unfold ret, bind. destruct (mapM _ _ w2) as [[ys|e] w3]; reflexivity.
  - rewrite skipn_all2 by (apply nth_error_None; exact EN). reflexivity.
Qed.
End Proofs.

(** a run time with lists, deques, tuples and dicts of ints and strs *)
Inductive mkind := KList | KDeque | KTuple | KDict.
Inductive mobj := MInt (n : nat) | MStr (n : nat) | MRef (k : mkind) (n : nat).
Record mstate := MState { m_seqs : list (list mobj); m_maps : list (list (mobj * mobj)) }.
Definition mobj_dec (x y : mobj) : {x = y} + {x <> y}.
Proof. decide equality; try apply PeanoNat.Nat.eq_dec. decide equality. Defined.
Definition mseq (w : mstate) (v : mobj) : option (list mobj) := match v with MRef KDict _ => None | MRef _ n => nth_error (m_seqs w) n | _ => None end.
Definition mitems (w : mstate) (v : mobj) : option (list (mobj * mobj)) := match v with MRef KDict n => nth_error (m_maps w) n | _ => None end.
Definition mutated : exc := mkexc RuntimeError "mutated during iteration".
Definition mheap : Heap mobj mstate := {|
  seq := mseq; items := mitems;
  same := fun x y => if mobj_dec x y then true else false;
  next := fun v w0 i w =>
    match mseq w v with
    | None => Raise (mkexc TypeError "object is not iterable")
    | Some l => match v with
                | MRef KDeque _ => match mseq w0 v with
                                   | Some l0 => if list_eq_dec mobj_dec l l0 then Ok (nth_error l i) else Raise mutated
                                   | None => Raise mutated
                                   end
                | _ => Ok (nth_error l i)
                end
    end;
  next_item := fun v w0 i w =>
    match mitems w v, mitems w0 v with
    | Some l, Some l0 => if Nat.eqb (List.length l) (List.length l0) then Ok (nth_error l i) else Raise mutated
    | _, _ => Raise (mkexc AttributeError "items")
    end;
  slices := fun v => match v with MRef KDeque _ => false | _ => true end;
  make_seq := fun v l w => (Ok (MRef (match v with MRef KDict _ => KList | MRef k _ => k | _ => KList end) (List.length (m_seqs w))), MState (m_seqs w ++ [l]) (m_maps w));
  make_map := fun v l w => (Ok (MRef KDict (List.length (m_maps w))), MState (m_seqs w) (m_maps w ++ [l]))
|}.
Fixpoint put_at {A} (n : nat) (x : A) (l : list A) : list A :=
  match n, l with 0, _ :: r => x :: r | S n, y :: r => y :: put_at n x r | _, [] => [] end.
(** int: only ints *)
Definition m_int (x : mobj) : M mstate mobj := match x with MInt _ => ret x | _ => raise (mkexc TypeError "not an int") end.
(** int, with the coercer that makes an int of a str *)
Definition m_to_int (x : mobj) : M mstate mobj := match x with MInt _ => ret x | MStr n => ret (MInt n) | _ => raise (mkexc TypeError "not an int") end.
Definition m_list (x : mobj) : M mstate mobj := fun w => match x, mseq w x with MRef KList _, Some _ => (Ok x, w) | _, _ => (Raise (mkexc TypeError "not a list"), w) end.
Definition m_is_int (x : mobj) : Prop := exists n, x = MInt n.
Definition m_is_list (x : mobj) : Prop := exists n, x = MRef KList n.
(** a validator of the elements that appends the element to the first list *)
Definition m_append (x : mobj) : M mstate mobj := fun w => (Ok x, MState (put_at 0 (nth 0 (m_seqs w) [] ++ [x]) (m_seqs w)) (m_maps w)).
(** int, and a validator that, given 2, replaces the first element of the first list *)
Definition m_replace (x : mobj) : M mstate mobj := fun w =>
  match x with
  | MInt 2 => (Ok x, MState (put_at 0 (put_at 0 (MStr 7) (nth 0 (m_seqs w) [])) (m_seqs w)) (m_maps w))
  | MInt _ => (Ok x, w)
  | _ => (Raise (mkexc TypeError "not an int"), w)
  end.

Lemma c135_unchanged_partial_proof : forall {obj W} (H : Heap obj W), lawful H -> forall (elt fk fv : obj -> M W obj) v w,
  (forall x w, unchanged H w (snd (elt x w))) -> (forall x w, unchanged H w (snd (fk x w))) -> (forall x w, unchanged H w (snd (fv x w))) ->
  (forall l n, seq H w v = Some l -> List.length l < n ->
     pass H n (fun x => ends (elt x)) v w 0 w = Some (Cont_main.all_filled (same H) elt (make_seq H v) v l w)) /\
  (forall l n, items H w v = Some l -> List.length l < n ->
     pass_map H n (fun x => ends (fk x)) (fun x => ends (fv x)) v w = Some (Cont_main.all_items_filled (same H) fk fv (make_map H v) v l w)).
Proof.
  intros obj W H LA elt fk fv v w KE KK KV. split; intros l n E L.
  - rewrite (pass_filled H LA (fun x => ends (elt x)) v w l (fun x => ends_keeps (unchanged H) (elt x) (KE x)) E n 0 w E) by lia.
    unfold filled_from. cbn [skipn firstn app]. unfold mo_bind, Cont_main.all_filled. rewrite each_mapM. unfold bind.
    destruct (mapM elt l w) as [[l'|e] w1]; [|reflexivity]. destruct (forallb _ _); reflexivity.
  - unfold pass_map, mo_bind. rewrite (live_items H LA fk fv v w l KK KV E n 0 w E) by lia. cbn [skipn]. unfold Cont_main.all_items_filled.
    assert (KM : forall l w l' w1, mapM (fun kv : obj * obj => let* k := fk (fst kv) in let* x := fv (snd kv) in ret (k, x)) l w = (Ok l', w1) -> unchanged H w w1).
    { clear - KK KV. induction l as [|[k x] l IH]; intros w l' w1 E; cbn [mapM] in E; [injection E as <- <-; apply unchanged_refl|].
      unfold bind in E. cbn [fst snd] in E. specialize (KK k w). destruct (fk k w) as [[k'|e] w2]; [|discriminate].
      specialize (KV x w2). destruct (fv x w2) as [[x'|e] w3]; [|discriminate]. unfold ret in E. cbn [snd] in *.
      destruct (mapM _ l w3) as [[ys|e] w4] eqn:EM; [|discriminate]. injection E as <- <-.
      eapply unchanged_trans; [exact KK|]. eapply unchanged_trans; [exact KV|]. eapply IH. exact EM. }
    specialize (KM l w). set (mm := mapM (fun kv : obj * obj => let* k := fk (fst kv) in let* x := fv (snd kv) in ret (k, x)) l) in *. unfold bind. destruct (mm w) as [[l'|e] w1] eqn:EM; [|reflexivity]. specialize (KM _ _ eq_refl). rewrite (proj2 KM v l E).
    destruct (forallb _ _); reflexivity.
Qed.

Lemma c135_ends_partial_proof : forall {obj W} (H : Heap obj W), lawful H -> forall F, uses (no_longer H) F ->
  forall x w, exists n r, forall m, n <= m -> run H m F x w = Some r.
Proof.
  intros obj W H LA F U x w. destruct (run_family H LA F U) as (_ & T & _). destruct (T x w) as (n & r & E). exists n, r. intros m L. eapply run_below; eassumption.
Qed.

Lemma mheap_lawful : lawful mheap.
Proof.
  constructor; cbn.
  - intros x y. destruct (mobj_dec x y); split; congruence.
  - intros v w0 i w l E0 E. rewrite E, E0. destruct v as [|n|[]]; try reflexivity. destruct (list_eq_dec _ _ _); [reflexivity|congruence].
  - intros v w0 i w x E. destruct (mseq w v) as [l|]; [|discriminate]. exists l. split; [reflexivity|]. apply nth_error_Some.
    destruct v as [|n|[]]; try congruence. destruct (mseq w0 _); [|discriminate]. destruct (list_eq_dec _ _ _); congruence.
  - intros v w0 i w l E0 E. rewrite E, E0, PeanoNat.Nat.eqb_refl. reflexivity.
  - intros v w0 i w x E. destruct (mitems w v) as [l|]; [|discriminate]. destruct (mitems w0 v) as [l0|]; [|discriminate]. destruct (Nat.eqb _ _); [|discriminate].
    exists l. split; [reflexivity|]. apply nth_error_Some. congruence.
  - intros v l w y w' E _. injection E as <- <-. cbn.
    assert (N1 : nth_error (m_seqs w) (List.length (m_seqs w)) = None) by (apply nth_error_None; lia).
    assert (N2 : nth_error (m_seqs w ++ [l]) (List.length (m_seqs w)) = Some l) by (rewrite nth_error_app2, PeanoNat.Nat.sub_diag by lia; reflexivity).
    destruct v as [|n|[]]; cbn; auto.
  - intros v l w. split; cbn; [|auto]. intros v0 l0 E. destruct v0 as [|n|[] n]; cbn in *; try discriminate; rewrite nth_error_app1; auto; apply nth_error_Some; congruence.
  - intros v l w y w' E. injection E as <- <-. cbn. split; [reflexivity|]. apply nth_error_None. lia.
  - intros v l w. split; cbn; [auto|]. intros v0 l0 E. destruct v0 as [|n|[] n]; cbn in *; try discriminate; rewrite nth_error_app1; auto; apply nth_error_Some; congruence.
Qed.
Lemma mheap_items : keeps_items mheap.
Proof. intros v l w y w' E. injection E as <- <-. cbn. rewrite nth_error_app2, PeanoNat.Nat.sub_diag by lia. reflexivity. Qed.

Lemma c135_append_refuted_proof : forall l, l <> [] -> forall n,
  run mheap n (FSeq m_list (FLeaf m_append)) (MRef KList 0) (MState [l] []) = None.
Proof.
  intros l NE n. cbn [run]. unfold mo_bind, ends, m_list. cbn.
  assert (G : forall n i l w0, i < List.length l -> pass mheap n (fun x => ends (m_append x)) (MRef KList 0) w0 i (MState [l] []) = None).
  { clear. induction n as [|n IH]; intros i l w0 L; [reflexivity|]. cbn [pass next mheap mseq m_seqs nth_error].
    destruct (nth_error l i) as [x|] eqn:EN; [|apply nth_error_None in EN; lia]. unfold mo_bind, ends, m_append. cbn -[pass mheap]. 
    replace (same mheap x x) with true by (cbn; destruct (mobj_dec x x); congruence). apply IH. rewrite app_length. cbn. lia. }
  apply G. destruct l; [congruence|cbn; lia].
Qed.

Lemma c136_types_partial_proof : forall {obj W} (H : Heap obj W), lawful H -> keeps_items H ->
  forall F s, uses (unchanged H) F -> promises H F s ->
  forall n x w y w', run H n F x w = Some (Ok y, w') -> fits H s w' y.
Proof.
 intros obj W H LA KI F s U PR n x w y w' E. exact (run_fits H LA KI n F s U PR x w y w' E). Qed.

Lemma c136_change_refuted_proof : exists w n w' l,
  run mheap n (FSeq m_list (FLeaf m_replace)) (MRef KList 0) w = Some (Ok (MRef KList 0), w') /\
  promises mheap (FSeq m_list (FLeaf m_replace)) (ShSeq m_is_list (ShLeaf m_is_int)) /\
  fits mheap (ShSeq m_is_list (ShLeaf m_is_int)) w (MRef KList 0) /\
  seq mheap w' (MRef KList 0) = Some l /\ In (MStr 7) l /\
  ~ fits mheap (ShSeq m_is_list (ShLeaf m_is_int)) w' (MRef KList 0).
Proof.
  exists (MState [[MInt 1; MInt 2; MInt 3]] []), 5. do 2 eexists. split; [reflexivity|]. split.
  - cbn. split; [|split].
    + intros x w y w' E. destruct x as [|n|[] n]; try (cbn in E; discriminate). cbn in E. destruct (nth_error (m_seqs w) n) eqn:EN; [|discriminate]. injection E as <- <-. split; [eexists; reflexivity|eexists; exact EN].
    + intros v l w y w' [n ->] E. injection E as <- <-. eexists. reflexivity.
    + intros x w y w' E. destruct x as [[|[|[|n]]]| |]; cbn in E; try discriminate; injection E as <- <-; eexists; reflexivity.
  - split; [|split; [reflexivity|split; [left; reflexivity|]]].
    + cbn. split; [eexists; reflexivity|]. eexists. split; [reflexivity|]. repeat constructor; eexists; reflexivity.
    + cbn. intros (_ & l & E & F). injection E as <-. inversion F as [|? ? [n X] _]. discriminate.
Qed.

Lemma c137_later_partial_proof : forall {obj W} (H : Heap obj W) s w w' x,
  (forall y l, reaches H w x y -> seq H w y = Some l -> seq H w' y = Some l) ->
  (forall y l, reaches H w x y -> items H w y = Some l -> items H w' y = Some l) ->
  fits H s w x -> fits H s w' x.
Proof.
  intros obj W H s w w' x HS HI.
  assert (G : forall s y, reaches H w x y -> fits H s w y -> fits H s w' y).
  2:{ intros F. apply G; [constructor|exact F]. }
  clear s. fix IH 1. intros [Q|Q e|Q es|Q k v] y R F; cbn in *.
  - exact F.
  - destruct F as (HQ & l & E & HF). split; [exact HQ|]. exists l. split; [apply HS; assumption|]. rewrite Forall_forall in *. intros z IN. apply IH; [eapply reaches_element; eassumption|auto].
  - destruct F as (HQ & l & E & HF). split; [exact HQ|]. exists l. split; [apply HS; assumption|].
    assert (RE : forall z, In z l -> reaches H w x z) by (intros z IN; eapply reaches_element; eassumption). clear E HQ.
    revert l RE HF. induction es as [|s es IHes]; intros [|z l] RE HF; try exact HF. destruct HF as [H1 H2]. split; [apply IH; [apply RE; left; reflexivity|exact H1]|]. apply IHes; [intros a IN; apply RE; right; exact IN|exact H2].
  - destruct F as (HQ & l & E & HF). split; [exact HQ|]. exists l. split; [apply HI; assumption|]. rewrite Forall_forall in *. intros [a b] IN. destruct (HF _ IN) as [H1 H2].
    split; apply IH; try assumption; cbn; [eapply reaches_key; eassumption|eapply reaches_value; eassumption].
Qed.

Lemma c137_append_refuted_proof : forall {obj W} (H : Heap obj W), lawful H -> forall f e Q s v l w n y w',
  uses (unchanged H) (FSeq f e) -> f v w = (Ok v, w) -> seq H w v = Some l ->
  run H n (FSeq f e) v w = Some (Ok y, w') ->
  (forall x m, In x l -> forall w1 z w2, run H m e x w1 = Some (Ok z, w2) -> z = x) ->
  y = v /\ forall w2 x, seq H w2 v = Some (l ++ [x]) -> ~ fits H s w2 x -> ~ fits H (ShSeq Q s) w2 y.
Proof.
  intros obj W H LA f e Q s v l w n y w' [U1 U2] EF EL E ID. cbn [run] in E. unfold mo_bind, ends in E. rewrite EF in E.
  destruct (pass_result H LA _ _ l _ _ _ _ (run_unchanged H LA e U2 n) EL E) as (l' & w2 & T & R).
  assert (EQ : l' = l).
  { clear - T ID. induction T as [|x l w y w1 l' w' S1 T IH]; [reflexivity|]. f_equal; [eapply (ID x n); [left; reflexivity|exact S1]|]. apply IH. intros z m IN. apply ID. right. exact IN. }
  destruct R as [(_ & -> & _)|(NE & _)]; [|congruence]. split; [reflexivity|].
  intros w3 x E3 NF (_ & l3 & E4 & F). rewrite E3 in E4. injection E4 as <-. apply NF. rewrite Forall_forall in F. apply F. apply in_app_iff. right. left. reflexivity.
Qed.

Lemma c138_stored_proof : forall {obj W} (H : Heap obj W), lawful H -> forall f e n x w y w', uses (unchanged H) (FSeq f e) ->
  run H n (FSeq f e) x w = Some (Ok y, w') -> forall v w1 l, f x w = (Ok v, w1) -> seq H w1 v = Some l ->
  exists l' w2, in_turn (fun a w b w' => run H n e a w = Some (Ok b, w')) l w1 l' w2 /\ unchanged H w w2 /\
    ((l' = l /\ y = v /\ w' = w2) \/ (l' <> l /\ seq H w2 y = None /\ items H w2 y = None /\ seq H w' y = Some l')).
Proof.
  intros obj W H LA f e n x w y w' [U1 U2] E v w1 l EF EL. cbn [run] in E. unfold mo_bind, ends in E. rewrite EF in E.
  destruct (pass_result H LA _ _ l _ _ _ _ (run_unchanged H LA e U2 n) EL E) as (l' & w2 & T & R). exists l', w2. split; [exact T|]. split.
  - eapply unchanged_trans; [specialize (U1 x w); rewrite EF in U1; exact U1|].
    refine (proj1 (turn_fits H _ (fun _ _ => True) _ _ _ _ _ _ T)); [intros a w3 b w4 S; split; [exact (run_unchanged H LA e U2 n _ _ _ _ S)|exact I]|auto].
  - destruct R as [R|(NE & EM)]; [left; exact R|right]. split; [exact NE|]. apply (la_make H LA _ _ _ _ _ EM).
    intros ->. pose proof (turn_length _ _ _ _ _ T). destruct l; [congruence|discriminate].
Qed.

Lemma c138_stored_mapping_proof : forall {obj W} (H : Heap obj W), lawful H -> forall f k e n x w y w', uses (unchanged H) (FMap f k e) ->
  run H n (FMap f k e) x w = Some (Ok y, w') -> forall v w1 l, f x w = (Ok v, w1) -> items H w1 v = Some l ->
  exists l' w2, in_turn (fun a w b w' => exists w3, run H n k (fst a) w = Some (Ok (fst b), w3) /\ run H n e (snd a) w3 = Some (Ok (snd b), w')) l w1 l' w2 /\
    ((l' = l /\ y = v /\ w' = w2) \/ (l' <> l /\ seq H w2 y = None /\ items H w2 y = None)).
Proof.
  intros obj W H LA f k e n x w y w' (U1 & U2 & U3) E v w1 l EF EL. cbn [run] in E. unfold mo_bind at 1, ends in E. rewrite EF in E.
  destruct (map_result H LA _ _ _ l _ _ _ _ (run_unchanged H LA k U2 n) (run_unchanged H LA e U3 n) EL E) as (l' & w2 & T & R). exists l', w2. split; [exact T|].
  destruct R as [R|(NE & EM)]; [left; exact R|right]. split; [exact NE|]. apply (la_make_map_new H LA _ _ _ _ _ EM).
Qed.

Lemma c138_inner_refuted_proof : exists w n y w' l,
  run mheap n (FSeq m_list (FSeq m_list (FLeaf m_to_int))) (MRef KList 0) w = Some (Ok y, w') /\ seq mheap w y = None /\
  seq mheap w' y = Some l /\ exists z, In z l /\ seq mheap w z = Some [MInt 1] /\ exists w2, seq mheap w2 z = Some [MStr 9] /\
  fits mheap (ShSeq m_is_list (ShSeq m_is_list (ShLeaf m_is_int))) w' y /\ ~ fits mheap (ShSeq m_is_list (ShSeq m_is_list (ShLeaf m_is_int))) w2 y.
Proof.
  exists (MState [[MRef KList 1; MRef KList 2]; [MInt 1]; [MStr 5]] []), 5. do 3 eexists. split; [reflexivity|]. split; [reflexivity|]. split; [reflexivity|].
  exists (MRef KList 1). split; [left; reflexivity|]. split; [reflexivity|].
  exists (MState [[MRef KList 1; MRef KList 2]; [MStr 9]; [MStr 5]; [MInt 5]; [MRef KList 1; MRef KList 3]] []). split; [reflexivity|]. split.
  - cbn. split; [eexists; reflexivity|]. eexists. split; [reflexivity|]. repeat constructor; try (eexists; reflexivity); eexists; (split; [reflexivity|]); repeat constructor; eexists; reflexivity.
  - cbn. intros (_ & l & E & F). injection E as <-. inversion F as [|? ? (_ & l2 & E2 & F2) _]. injection E2 as <-. inversion F2 as [|? ? [n X] _]. discriminate.
Qed.
