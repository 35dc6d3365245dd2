(** Filler_proofs.v -- lemmas about the filler model. *)
From Verif Require Import Base Py Filler Spec_Filler.

(** ** Inverting computations *)

Lemma obind_Ok : forall {A B} (m : outcome A) (k : A -> outcome B) b,
  obind m k = Ok b -> exists a, m = Ok a /\ k a = Ok b.
Proof. intros A B [a|e] k b H; cbn in H; [eauto | discriminate]. Qed.

Lemma bind_Ok : forall {W A B} (m : M W A) (k : A -> M W B) w b w',
  bind m k w = (Ok b, w') -> exists a w1, m w = (Ok a, w1) /\ k a w1 = (Ok b, w').
Proof.
  intros W A B m k w b w' H. unfold bind in H. destruct (m w) as [[a|e] w1]; [eauto | discriminate].
Qed.

Lemma bind_Raise : forall {W A B} (m : M W A) (k : A -> M W B) w e w',
  bind m k w = (Raise e, w') ->
  m w = (Raise e, w') \/ exists a w1, m w = (Ok a, w1) /\ k a w1 = (Raise e, w').
Proof.
  intros W A B m k w e w' H. unfold bind in H. destruct (m w) as [[a|e'] w1]; [right; eauto | left; congruence].
Qed.

Lemma bind_assoc : forall {W A B C} (m : M W A) (k : A -> M W B) (j : B -> M W C) w,
  bind (bind m k) j w = bind m (fun a => bind (k a) j) w.
Proof. intros. unfold bind. destruct (m w) as [[a|e] w1]; reflexivity. Qed.

Ltac oinv H :=
  let a := fresh "a" in let H1 := fresh H "a" in
  apply obind_Ok in H; destruct H as (a & H1 & H).

Ltac minv H :=
  let a := fresh "a" in let w := fresh "w" in let H1 := fresh H "a" in
  apply bind_Ok in H; destruct H as (a & w & H1 & H).

Lemma mapO_Forall2 : forall {A B} (f : A -> outcome B) l l',
  mapO f l = Ok l' <-> Forall2 (fun a b => f a = Ok b) l l'.
Proof.
  intros A B f; induction l as [|a r IH]; intros l'; cbn; split; intro H.
  - injection H as <-; constructor.
  - inversion H; reflexivity.
  - oinv H. oinv H. injection H as <-. constructor; [assumption | apply IH; assumption].
  - inversion H; subst. rewrite H2; cbn. apply IH in H4. rewrite H4. reflexivity.
Qed.

Lemma mapO_length : forall {A B} (f : A -> outcome B) l l', mapO f l = Ok l' -> List.length l' = List.length l.
Proof. intros A B f l l' H. apply mapO_Forall2 in H. induction H; cbn; congruence. Qed.

Lemma mapM_Forall : forall {W A B} (Q : B -> Prop) (f : A -> M W B) l w l' w',
  (forall x w y w', f x w = (Ok y, w') -> Q y) ->
  mapM f l w = (Ok l', w') -> Forall Q l'.
Proof.
  intros W A B Q f; induction l as [|a r IH]; intros w l' w' HQ H; cbn in H.
  - injection H as <- _. constructor.
  - minv H. minv H. injection H as <- <-. constructor; [eapply HQ; eassumption | eapply IH; eassumption].
Qed.

Lemma any_i_ex : forall {A} (p : nat -> A -> Prop) l i,
  any_i p i l <-> exists n a, nth_error l n = Some a /\ p (i + n) a.
Proof.
  intros A p; induction l as [|a r IH]; intros i; cbn; split.
  - tauto.
  - intros (n & b & Hn & _). destruct n; discriminate.
  - intros [H|H].
    + exists 0, a. rewrite Nat.add_0_r. auto.
    + apply IH in H. destruct H as (n & b & Hn & Hp). exists (S n), b. rewrite Nat.add_succ_r. auto.
  - intros (n & b & Hn & Hp). destruct n as [|n]; cbn in Hn.
    + injection Hn as ->. rewrite Nat.add_0_r in Hp. auto.
    + right. apply IH. exists n, b. rewrite Nat.add_succ_r in Hp. auto.
Qed.

Lemma all2_i_nth : forall {A B} (p : nat -> A -> B -> Prop) l m i,
  all2_i p i l m <->
  (List.length l = List.length m /\
   forall n a b, nth_error l n = Some a -> nth_error m n = Some b -> p (i + n) a b).
Proof.
  intros A B p; induction l as [|a r IH]; intros [|b s] i; cbn; split.
  - intros _. split; [reflexivity|]. intros [|n] ? ? H; discriminate.
  - tauto.
  - tauto.
  - intros [H _]; discriminate.
  - tauto.
  - intros [H _]; discriminate.
  - intros [H1 H2]. apply IH in H2. destruct H2 as [L H2]. split; [congruence|].
    intros [|n] a' b' Ha Hb; cbn in Ha, Hb.
    + injection Ha as <-; injection Hb as <-. rewrite Nat.add_0_r. assumption.
    + rewrite Nat.add_succ_r. apply (H2 n); assumption.
  - intros [L H]. split.
    + specialize (H 0 a b eq_refl eq_refl). rewrite Nat.add_0_r in H. assumption.
    + apply IH. split; [congruence|]. intros n a' b' Ha Hb.
      specialize (H (S n) a' b' Ha Hb). rewrite Nat.add_succ_r in H. assumption.
Qed.

Lemma style_eqb_spec : forall a b, reflect (a = b) (style_eqb a b).
Proof. intros [] []; constructor; congruence. Qed.

Section Proofs.
Context {obj ty W : Type} (P : Py obj ty W).
Notation token := (@token obj ty W).
Notation hint := (@hint obj ty W).
Notation filler := (@filler obj ty W).
Notation afiller := (@afiller obj ty W).
Notation callback := (@callback obj W).
Notation akind := (@akind obj ty).

(** ** Induction over annotations and fillers *)

Section HintInd.
Variable Q : hint -> Prop.
Hypothesis HQTy : forall t, Q (HTy t).
Hypothesis HQNone : Q HNone.
Hypothesis HQCallable : Q HCallable.
Hypothesis HQAny : Q HAny.
Hypothesis HQNewType : forall h, Q h -> Q (HNewType h).
Hypothesis HQUnion : forall hs, Forall Q hs -> Q (HUnion hs).
Hypothesis HQLiteral : forall l vs, Q (HLiteral l vs).
Hypothesis HQType : forall b, Q (HType b).
Hypothesis HQTupleN : forall hs, Forall Q hs -> Q (HTupleN hs).
Hypothesis HQTupleV : forall h, Q h -> Q (HTupleV h).
Hypothesis HQIter : forall rk t h, Q h -> Q (HIter rk t h).
Hypothesis HQMap : forall rk t hk hv, Q hk -> Q hv -> Q (HMap rk t hk hv).
Hypothesis HQGenN : forall t hs, Forall Q hs -> Q (HGenN t hs).
Hypothesis HQBare : forall t, Q (HBare t).
Hypothesis HQOther : Q HOther.
Hypothesis HQAnn : forall h ts, Q h -> Q (HAnn h ts).

Fixpoint hint_ind' (h : hint) : Q h :=
  let fix all (hs : list hint) : Forall Q hs :=
    match hs with [] => Forall_nil Q | h :: r => Forall_cons h (hint_ind' h) (all r) end in
  match h with
  | HTy t => HQTy t
  | HNone => HQNone
  | HCallable => HQCallable
  | HAny => HQAny
  | HNewType h => HQNewType h (hint_ind' h)
  | HUnion hs => HQUnion hs (all hs)
  | HLiteral l vs => HQLiteral l vs
  | HType b => HQType b
  | HTupleN hs => HQTupleN hs (all hs)
  | HTupleV h => HQTupleV h (hint_ind' h)
  | HIter rk t h => HQIter rk t h (hint_ind' h)
  | HMap rk t hk hv => HQMap rk t hk hv (hint_ind' hk) (hint_ind' hv)
  | HGenN t hs => HQGenN t hs (all hs)
  | HBare t => HQBare t
  | HOther => HQOther
  | HAnn h ts => HQAnn h ts (hint_ind' h)
  end.
End HintInd.

Section FillerInd.
Variable Q : filler -> Prop.
Hypothesis FQAnn : forall a, Q (FAnn a).
Hypothesis FQDumb : forall b, Q (FDumb b).
Hypothesis FQUnion : forall ar ap subs b, Forall Q subs -> Q (FUnion ar ap subs b).
Hypothesis FQType : forall b a t, Q (FType b a t).
Hypothesis FQTupleN : forall b a subs, Forall Q subs -> Q (FTupleN b a subs).
Hypothesis FQTupleV : forall b a sub, Q sub -> Q (FTupleV b a sub).
Hypothesis FQIter : forall rk b a sub, Q sub -> Q (FIter rk b a sub).
Hypothesis FQMap : forall rk b a fk fv, Q fk -> Q fv -> Q (FMap rk b a fk fv).
Hypothesis FQGenN : forall b a subs, Forall Q subs -> Q (FGenN b a subs).

Fixpoint filler_ind' (f : filler) : Q f :=
  let fix all (l : list filler) : Forall Q l :=
    match l with [] => Forall_nil Q | x :: r => Forall_cons x (filler_ind' x) (all r) end in
  match f with
  | FAnn a => FQAnn a
  | FDumb b => FQDumb b
  | FUnion ar ap subs b => FQUnion ar ap subs b (all subs)
  | FType b a t => FQType b a t
  | FTupleN b a subs => FQTupleN b a subs (all subs)
  | FTupleV b a sub => FQTupleV b a sub (filler_ind' sub)
  | FIter rk b a sub => FQIter rk b a sub (filler_ind' sub)
  | FMap rk b a fk fv => FQMap rk b a fk fv (filler_ind' fk) (filler_ind' fv)
  | FGenN b a subs => FQGenN b a subs (all subs)
  end.
End FillerInd.

(** ** Applying tokens *)

(** the coercers and validators a list of tokens yields for a kind of filler *)
Fixpoint tok_coercers (k : akind) (ts : list token) : outcome (list callback) :=
  match ts with
  | [] => Ok []
  | TCoerce c :: r => do f <- get_coercer P k c; do fs <- tok_coercers k r; Ok (f :: fs)
  | _ :: r => tok_coercers k r
  end.

Fixpoint tok_validators (k : akind) (ts : list token) : outcome (list callback) :=
  match ts with
  | [] => Ok []
  | TValid v :: r => do f <- get_validator P k v; do fs <- tok_validators k r; Ok (f :: fs)
  | _ :: r => tok_validators k r
  end.

Definition style_after (s : style) (ts : list token) : style :=
  fold_left (fun acc t => match t with TStyle s => s | _ => acc end) ts s.

Lemma aapplys_inv : forall ts (a a' : afiller),
  aapplys P a ts = Ok a' ->
  exists cs vs, tok_coercers (a_kind a) ts = Ok cs /\ tok_validators (a_kind a) ts = Ok vs /\
    a' = AF (a_kind a) (a_args a) (style_after (a_style a) ts)
            (a_coercers a ++ cs) (a_validators a ++ vs) (a_bound a) /\
    (ts = [] \/ a_bound a = false).
Proof.
  induction ts as [|t r IH]; intros a a' H; cbn in H.
  - injection H as <-. exists [], []. cbn. rewrite !app_nil_r. destruct a; cbn; auto.
  - oinv H. unfold aapply in Ha.
    destruct (a_bound a) eqn:B; [discriminate|].
    destruct t as [s|c|v|]; cbn [tok_coercers tok_validators].
    + injection Ha as <-. apply IH in H. destruct H as (cs & vs & H1 & H2 & H3 & H4).
      exists cs, vs. cbn in *. rewrite ?B in H3. auto.
    + oinv Ha. injection Ha as <-. apply IH in H. destruct H as (cs & vs & H1 & H2 & H3 & H4).
      exists (a1 :: cs), vs. cbn in *. rewrite Haa, H1. cbn. rewrite <- app_assoc in H3. rewrite ?B in H3. auto.
    + oinv Ha. injection Ha as <-. apply IH in H. destruct H as (cs & vs & H1 & H2 & H3 & H4).
      exists cs, (a1 :: vs). cbn in *. rewrite Haa, H2. cbn. rewrite <- app_assoc in H3. rewrite ?B in H3. auto.
    + injection Ha as <-. apply IH in H. destruct H as (cs & vs & H1 & H2 & H3 & H4).
      exists cs, vs. cbn in *. rewrite ?B in H3. auto.
Qed.

Lemma aapplys_app : forall ts us (a : afiller),
  aapplys P a (ts ++ us) = do a1 <- aapplys P a ts; aapplys P a1 us.
Proof.
  induction ts as [|t r IH]; intros us a; cbn; [reflexivity|].
  destruct (aapply P a t); cbn; auto.
Qed.

Lemma applys_app : forall ts us (f : filler),
  applys P f (ts ++ us) = do f1 <- applys P f ts; applys P f1 us.
Proof.
  induction ts as [|t r IH]; intros us f; cbn; [reflexivity|].
  destruct (apply P f t); cbn; auto.
Qed.

(** applying tokens and then binding is binding with these tokens *)
Lemma bind_with_apply : forall dflt pre t f f1,
  apply P f t = Ok f1 -> bind_with P dflt pre f1 = bind_with P dflt (t :: pre) f.
Proof.
  intros dflt pre t f f1 H. destruct f; cbn in H |- *;
    try (oinv H; injection H as <-; rewrite Ha; reflexivity).
  - discriminate.
  - destruct bound; [discriminate|]. injection H as <-. cbn. rewrite <- app_assoc. reflexivity.
Qed.

Lemma bind_with_applys : forall dflt ts pre f f1,
  applys P f ts = Ok f1 -> bind_with P dflt pre f1 = bind_with P dflt (ts ++ pre) f.
Proof.
  induction ts as [|t r IH]; intros pre f f1 H; cbn in H.
  - injection H as <-. reflexivity.
  - oinv H. rewrite (IH _ _ _ H). cbn. apply bind_with_apply. assumption.
Qed.

(** ** What a bound AnnotatedFiller looks like *)

Definition lit_validators (k : akind) (s : style) : list callback :=
  match k with
  | KLiteral lid vals => if style_eqb s SHollow then [] else [literal_validator P lid vals]
  | _ => []
  end.

Lemma last_style_app : forall ts us : list token,
  style_after (style_after SDefault ts) us = last_style (ts ++ us).
Proof. intros. unfold last_style, style_after. rewrite fold_left_app. reflexivity. Qed.

Lemma eff_style_eq : forall dflt (ts : list token),
  (if style_eqb (last_style ts) SDefault then dflt else last_style ts) = eff_style dflt ts.
Proof. intros. unfold eff_style. destruct (last_style ts); reflexivity. Qed.

Lemma tok_coercers_app : forall k ts us cs ds,
  tok_coercers k ts = Ok cs -> tok_coercers k us = Ok ds -> tok_coercers k (ts ++ us) = Ok (cs ++ ds).
Proof.
  induction ts as [|t r IH]; intros us cs ds H1 H2; cbn in *.
  - injection H1 as <-. assumption.
  - destruct t; try (apply IH; assumption). oinv H1. oinv H1. injection H1 as <-.
    rewrite H1a. cbn. rewrite (IH _ _ _ H1a0 H2). reflexivity.
Qed.

Lemma tok_validators_app : forall k ts us cs ds,
  tok_validators k ts = Ok cs -> tok_validators k us = Ok ds -> tok_validators k (ts ++ us) = Ok (cs ++ ds).
Proof.
  induction ts as [|t r IH]; intros us cs ds H1 H2; cbn in *.
  - injection H1 as <-. assumption.
  - destruct t; try (apply IH; assumption). oinv H1. oinv H1. injection H1 as <-.
    rewrite H1a. cbn. rewrite (IH _ _ _ H1a0 H2). reflexivity.
Qed.

Lemma bound_afiller : forall dflt pre k own a1 a2,
  aapplys P (mk_afiller k own) pre = Ok a1 -> abind P dflt a1 = Ok a2 ->
  exists cs vs,
    tok_coercers k (pre ++ own) = Ok cs /\ tok_validators k (pre ++ own) = Ok vs /\
    a2 = AF k own (eff_style dflt (pre ++ own)) cs
            (vs ++ lit_validators k (eff_style dflt (pre ++ own))) true /\
    (eff_style dflt (pre ++ own) = SHollow -> cs = []) /\
    (eff_style dflt (pre ++ own) = SStrict -> kind_abstract P k = false).
Proof.
  intros dflt pre k own a1 a2 H1 H2.
  apply aapplys_inv in H1. destruct H1 as (c1 & v1 & C1 & V1 & -> & _). cbn in *.
  unfold abind in H2. cbn in H2. oinv H2. apply aapplys_inv in H2a.
  destruct H2a as (c2 & v2 & C2 & V2 & -> & _). cbn in *.
  rewrite last_style_app, eff_style_eq in H2.
  exists (c1 ++ c2), (v1 ++ v2).
  split; [apply tok_coercers_app; assumption|].
  split; [apply tok_validators_app; assumption|].
  destruct (style_eqb_spec (eff_style dflt (pre ++ own)) SHollow) as [E|N]; cbn [andb negb] in H2.
  - rewrite E in *. destruct (c1 ++ c2) eqn:CC; [|discriminate]. cbn in H2.
    destruct k; cbn in H2; injection H2 as <-; cbn; rewrite app_nil_r;
      (split; [reflexivity | split; [reflexivity | intros; discriminate]]).
  - destruct k; cbn [a_kind] in H2;
      try (match type of H2 with context [andb ?b ?c] =>
             destruct (andb b c) eqn:AB in H2; [discriminate|] end;
           injection H2 as <-; cbn [lit_validators]; rewrite app_nil_r;
           split; [reflexivity|]; split; [congruence|];
           intros E; rewrite E in AB; cbn in AB; exact AB).
    injection H2 as <-. cbn [lit_validators]. unfold ahollow; cbn.
    destruct (style_eqb_spec (eff_style dflt (pre ++ own)) SHollow) as [E|N']; [contradiction|].
    cbn. split; [reflexivity|]. split; [congruence|]. reflexivity.
Qed.

(** ** Type checking and coercion *)

(** what a successful type phase guarantees about the value *)
Definition kind_ok (s : style) (k : akind) (cs : list callback) (v : obj) : Prop :=
  match k with
  | KSimple t => class_ok P s t v
  | KBool => class_ok P s (t_bool P) v
  | KNone => checked s (cs <> [] \/ v = o_none P)
  | KEllipsis => checked s (cs <> [] \/ v = o_ellipsis P)
  | KCallable => checked s (cs <> [] \/ callable P v = true)
  | KLiteral _ _ => s <> SDefault
  end.

Lemma simple_check_exact : forall t v, simple_check P t v = TCExact -> type_of P v = t.
Proof.
  intros t v H. unfold simple_check in H. destruct (ty_eqP P (type_of P v) t); [assumption|].
  destruct (isinstance P v t); discriminate.
Qed.

Lemma simple_check_inexact : forall t v, simple_check P t v = TCInexact -> isinstance P v t = true.
Proof.
  intros t v H. unfold simple_check in H. destruct (ty_eqb P (type_of P v) t); [discriminate|].
  destruct (isinstance P v t); [reflexivity|discriminate].
Qed.

Lemma simple_check_false : forall t v, simple_check P t v <> TCFalse.
Proof.
  intros t v. unfold simple_check. destruct (ty_eqb _ _ _); [discriminate|]. destruct (isinstance _ _ _); discriminate.
Qed.

Lemma kind_ok_exact : forall s k cs v w,
  s = SCheck \/ s = SStrict -> type_check P k v w = TCExact -> kind_ok s k cs v.
Proof.
  intros s k cs v w Hs H.
  destruct k; cbn in *;
    try (apply simple_check_exact in H; destruct Hs as [->| ->]; cbn; auto; fail).
  - destruct (py_isP P v (o_none P)); [|discriminate]. destruct Hs as [->| ->]; cbn; auto.
  - destruct (py_isP P v (o_ellipsis P)); [|discriminate]. destruct Hs as [->| ->]; cbn; auto.
  - destruct (callable P v) eqn:E; [|discriminate]. destruct Hs as [->| ->]; cbn; auto.
  - destruct Hs; congruence.
Qed.

Lemma kind_ok_inexact : forall k cs v w, type_check P k v w = TCInexact -> kind_ok SCheck k cs v.
Proof.
  intros k cs v w H. destruct k; cbn in *;
    try (apply simple_check_inexact in H; auto; fail).
  - destruct (py_is P v (o_none P)); discriminate.
  - destruct (py_is P v (o_ellipsis P)); discriminate.
  - destruct (callable P v); discriminate.
  - discriminate.
Qed.

Lemma kind_ok_coerced : forall s k cs v w,
  s = SCheck \/ s = SStrict -> cs <> [] ->
  coerced_ok s (type_check P k v w) = true -> kind_ok s k cs v.
Proof.
  intros s k cs v w Hs Hcs H.
  destruct (type_check P k v w) eqn:E.
  - eapply kind_ok_exact; eassumption.
  - cbn in H. destruct (style_eqb_spec s SCheck) as [->|]; [|discriminate]. eapply kind_ok_inexact; eassumption.
  - discriminate.
  - destruct k; cbn in E.
    + destruct (simple_check_false _ _ E).
    + destruct (simple_check_false _ _ E).
    + destruct Hs as [->| ->]; cbn; auto.
    + destruct Hs as [->| ->]; cbn; auto.
    + destruct Hs as [->| ->]; cbn; auto.
    + cbn. destruct Hs; congruence.
Qed.

Lemma run_coercers_ok : forall k s cs x w y w',
  cs <> [] -> run_coercers P k s cs x w = (Ok y, w') -> coerced_ok s (type_check P k y w') = true.
Proof.
  induction cs as [|c r IH]; intros x w y w' Hn H; [congruence|]. cbn in H.
  destruct (c x w) as [[y1|e] w1].
  - destruct (coerced_ok s (type_check P k y1 w1)) eqn:E.
    + injection H as <- <-. assumption.
    + destruct r as [|c' r']; [discriminate|]. eapply IH; [discriminate|eassumption].
  - destruct r as [|c' r']; cbn in H; [rewrite andb_false_r in H; discriminate|].
    destruct (is_Exception e); cbn in H; [|discriminate]. eapply IH; [discriminate|eassumption].
Qed.

Lemma type_phase_ok : forall k s cs x w y p w',
  type_phase P k s cs x w = (Ok (y, p), w') -> kind_ok s k cs y.
Proof.
  intros k s cs x w y p w' H. unfold type_phase in H.
  assert (CO : forall w1, s = SCheck \/ s = SStrict ->
    (match cs with
     | [] => raise (mkexc TypeError "failed type checking")
     | _ => let* y := run_coercers P k s cs x in ret (y, PCoerce)
     end) w1 = (Ok (y, p), w') -> kind_ok s k cs y).
  { intros w1 Hs HC. destruct cs as [|c r]; [discriminate|].
    minv HC. injection HC as <- <- <-. eapply kind_ok_coerced; [assumption|discriminate|].
    eapply run_coercers_ok; [|eassumption]. discriminate. }
  destruct s.
  - discriminate.
  - injection H as <- <- <-. destruct k; cbn; auto. discriminate.
  - destruct (type_check P k x w) eqn:E; cbn in H.
    + injection H as <- <- <-. eapply kind_ok_exact; eauto.
    + injection H as <- <- <-. eapply kind_ok_inexact; eauto.
    + eapply CO; eauto.
    + eapply CO; eauto.
  - destruct (type_check P k x w) eqn:E; cbn in H.
    + injection H as <- <- <-. eapply kind_ok_exact; eauto.
    + eapply CO; eauto.
    + eapply CO; eauto.
    + eapply CO; eauto.
Qed.

(** ** Validators *)

Lemma run_validators_app : forall (vs us : list callback) x w,
  run_validators (vs ++ us) x w = (let* y := run_validators vs x in run_validators us y) w.
Proof.
  induction vs as [|v r IH]; intros us x w; cbn; [reflexivity|].
  unfold bind. destruct (v x w) as [[y|e] w1] eqn:E; [|reflexivity].
  rewrite IH. reflexivity.
Qed.

Lemma run_validators_asserting : forall (vs : list callback) x w y w',
  Forall asserting_callback vs -> run_validators vs x w = (Ok y, w') -> y = x.
Proof.
  induction vs as [|v r IH]; intros x w y w' HA H; cbn in H.
  - injection H as <- _; reflexivity.
  - inversion HA; subst. minv H. apply H2 in Ha. subst. eapply IH; eassumption.
Qed.

Lemma tok_validators_asserting : forall k ts vs,
  Forall asserting ts -> tok_validators k ts = Ok vs -> Forall asserting_callback vs.
Proof.
  induction ts as [|t r IH]; intros vs HA H; cbn in H.
  - injection H as <-. constructor.
  - inversion HA; subst. destruct t; try (apply IH; assumption).
    oinv H. oinv H. injection H as <-. constructor; [|apply IH; assumption].
    destruct v; cbn in *; [|discriminate]. eapply H2; eassumption.
Qed.

Lemma accepted_validators : forall k ts vs x w y w',
  Forall asserting ts -> tok_validators k ts = Ok vs -> run_validators vs x w = (Ok y, w') ->
  accepted ts (origin_of P k) x.
Proof.
  intros k ts vs x w y w' HA HV H g f HI HG. revert vs w HV H.
  induction ts as [|t r IH]; intros vs w HV H; [destruct HI|].
  inversion HA as [|? ? A1 A2]; subst.
  destruct t as [s|c|v|]; cbn in HV;
    try (destruct HI as [HI|HI]; [discriminate|]; eapply IH; eassumption).
  oinv HV. oinv HV. injection HV as <-. cbn in H. minv H.
  assert (a1 = x).
  { destruct v as [g'|]; cbn in *; [|discriminate]. eapply A1; eassumption. }
  subst a1. destruct HI as [HI|HI].
  - injection HI as ->. cbn in HVa. rewrite HG in HVa. injection HVa as <-. eauto.
  - eapply IH; eassumption.
Qed.

Lemma afill_inv : forall (a : afiller) x w y p w',
  afill P a x w = (Ok (y, p), w') ->
  exists z w1, type_phase P (a_kind a) (a_style a) (a_coercers a) x w = (Ok (z, p), w1) /\
               run_validators (a_validators a) z w1 = (Ok y, w').
Proof.
  intros a x w y p w' H. unfold afill in H. minv H. minv H. injection H as <- <- <-.
  destruct a0 as [z q]. cbn in *. eauto.
Qed.

Lemma literal_validator_ok : forall lid vals v w y w',
  literal_validator P lid vals v w = (Ok y, w') ->
  y = v /\ exists l, In l vals /\ type_of P v = type_of P l /\ lit_eq P v l = true.
Proof.
  intros lid vals v w y w' H. unfold literal_validator in H.
  destruct (lit_mem P vals v) eqn:E; [|discriminate]. injection H as <- _. split; [reflexivity|].
  unfold lit_mem in E. apply existsb_exists in E. destruct E as (l & HI & HE).
  apply andb_prop in HE. destruct HE as [HT HE].
  exists l. split; [assumption|]. split; [|assumption].
  destruct (ty_eqP P (type_of P v) (type_of P l)); [assumption|discriminate].
Qed.

Lemma coercers_nonempty : forall k ts cs, tok_coercers k ts = Ok cs -> cs <> [] -> has_coercer ts = true.
Proof.
  induction ts as [|t r IH]; intros cs H N; cbn in H.
  - injection H as <-. congruence.
  - destruct t; cbn; try (eapply IH; eassumption). reflexivity.
Qed.

(** ** Element-wise filling *)

Lemma fill_rest_ok : forall (Q : obj -> Prop) rk elt v l done w r w',
  (forall x w y w', elt x w = (Ok y, w') -> Q y) ->
  Forall Q done ->
  fill_rest P rk elt v done l w = (Ok r, w') ->
  (r = v /\ Forall Q l) \/ (exists es w1, rebuild P rk v es w1 = (Ok r, w') /\ Forall Q es).
Proof.
  intros Q rk elt v; induction l as [|e l IH]; intros done w r w' HQ HD H; cbn in H.
  - injection H as <- _. left; auto.
  - minv H. pose proof (HQ _ _ _ _ Ha) as Qa. destruct (py_isP P a e) as [->|N].
    + apply IH in H; [|assumption|apply Forall_app; auto].
      destruct H as [[-> HF]|H]; [left; auto | right; assumption].
    + minv H. right. exists (done ++ a :: a0), w1. split; [assumption|].
      apply Forall_app. split; [assumption|]. constructor; [assumption|].
      eapply mapM_Forall; eassumption.
Qed.

Lemma fill_zip_ok : forall (Q : nat -> obj -> Prop) (fs : list callback) i l w es w',
  (forall n f x w y w', nth_error fs n = Some f -> f x w = (Ok y, w') -> Q (i + n) y) ->
  List.length fs = List.length l ->
  fill_zip fs l w = (Ok es, w') ->
  List.length es = List.length l /\ forall n y, nth_error es n = Some y -> Q (i + n) y.
Proof.
  intros Q; induction fs as [|f fr IH]; intros i [|e l] w es w' HQ HL H; cbn in *; try discriminate.
  - injection H as <- _. split; [reflexivity|]. intros [|n] y E; discriminate.
  - minv H. minv H. injection H as <- <-.
    apply (IH (S i)) in Ha0; [|intros n g x w2 y w2' E; rewrite Nat.add_succ_l, <- Nat.add_succ_r; apply (HQ (S n)); assumption|congruence].
    destruct Ha0 as [L HE]. split; [cbn; congruence|].
    intros [|n] y E; cbn in E.
    + injection E as <-. apply (HQ 0 f e w _ _ eq_refl Ha).
    + rewrite Nat.add_succ_r, <- Nat.add_succ_l. apply HE. assumption.
Qed.

Lemma tuple_rest_ok : forall (Q : nat -> obj -> Prop) v (fs : list callback) l done w r w',
  (forall n f x w y w', nth_error fs n = Some f -> f x w = (Ok y, w') -> Q (List.length done + n) y) ->
  List.length fs = List.length l ->
  (forall n y, nth_error done n = Some y -> Q n y) ->
  tuple_rest P fs v done l w = (Ok r, w') ->
  (r = v /\ forall n y, nth_error (done ++ l) n = Some y -> Q n y) \/
  (exists es w1, rebuild P RkPlain v es w1 = (Ok r, w') /\
     List.length es = List.length (done ++ l) /\ forall n y, nth_error es n = Some y -> Q n y).
Proof.
  intros Q v; induction fs as [|f fr IH]; intros [|e l] done w r w' HQ HL HD H; cbn in *; try discriminate.
  - injection H as <- _. left. rewrite app_nil_r. auto.
  - minv H. pose proof (HQ 0 f e w _ _ eq_refl Ha) as Qa. rewrite Nat.add_0_r in Qa.
    assert (HD' : forall n y, nth_error (done ++ [a]) n = Some y -> Q n y).
    { intros n y E. destruct (Nat.lt_ge_cases n (List.length done)) as [L|L].
      - rewrite nth_error_app1 in E by assumption. auto.
      - rewrite nth_error_app2 in E by assumption.
        destruct (n - List.length done) as [|m] eqn:D; [|destruct m; discriminate].
        cbn in E. injection E as <-. replace n with (List.length done) by lia. assumption. }
    destruct (py_isP P a e) as [->|N].
    + apply IH in H.
      * rewrite <- app_assoc in H. exact H.
      * intros n g x w2 y w2' E. rewrite app_length. cbn. rewrite <- Nat.add_assoc. cbn. apply (HQ (S n)). assumption.
      * congruence.
      * assumption.
    + minv H. right. exists (done ++ a :: a0), w1. split; [assumption|].
      apply (fill_zip_ok (fun n y => Q n y) fr (S (List.length done))) in Ha0;
        [|intros n g x w2 y w2' E; rewrite Nat.add_succ_l, <- Nat.add_succ_r; apply (HQ (S n)); assumption|congruence].
      destruct Ha0 as [L HE]. split; [rewrite !app_length; cbn; congruence|].
      intros n y E. destruct (Nat.lt_ge_cases n (S (List.length done))) as [B|B].
      * apply HD'. change (done ++ a :: a0) with (done ++ ([a] ++ a0)) in E. rewrite app_assoc in E.
        rewrite nth_error_app1 in E; [assumption|]. rewrite app_length; cbn; lia.
      * change (done ++ a :: a0) with (done ++ ([a] ++ a0)) in E. rewrite app_assoc in E.
        rewrite nth_error_app2 in E by (rewrite app_length; cbn; lia).
        rewrite app_length in E. cbn in E.
        specialize (HE _ _ E). replace (S (List.length done) + (n - (List.length done + 1))) with n in HE by lia.
        assumption.
Qed.

Lemma all_same_eq : forall l l' : list (obj * obj),
  List.length l = List.length l' -> all_same P l l' = true -> l = l'.
Proof.
  induction l as [|[k v] r IH]; intros [|[k' v'] r'] L H; cbn in *; try discriminate; [reflexivity|].
  apply andb_prop in H. destruct H as [H1 H2]. unfold pair_is in H1. cbn in H1.
  apply andb_prop in H1. destruct H1 as [A B].
  destruct (py_isP P k k') as [->|]; [|discriminate].
  destruct (py_isP P v v') as [->|]; [|discriminate].
  f_equal. apply IH; [congruence|assumption].
Qed.

Lemma mapM_length : forall {A B} (f : A -> M W B) l w l' w', mapM f l w = (Ok l', w') -> List.length l' = List.length l.
Proof.
  induction l as [|a r IH]; intros w l' w' H; cbn in H.
  - injection H as <- _. reflexivity.
  - minv H. minv H. injection H as <- <-. cbn. f_equal. eapply IH; eassumption.
Qed.

Lemma map_validator_ok : forall (Qk Qv : obj -> Prop) rk fk fv v w r w',
  (forall x w y w', fk x w = (Ok y, w') -> Qk y) ->
  (forall x w y w', fv x w = (Ok y, w') -> Qv y) ->
  map_validator P rk fk fv v w = (Ok r, w') ->
  exists l, items P v = Some l /\
    ((r = v /\ Forall (fun kv => Qk (fst kv) /\ Qv (snd kv)) l) \/
     (exists es w1, rebuild_map P rk v es w1 = (Ok r, w') /\ Forall (fun kv => Qk (fst kv) /\ Qv (snd kv)) es)).
Proof.
  intros Qk Qv rk fk fv v w r w' HK HV H. unfold map_validator in H.
  destruct (items P v) as [l|] eqn:E; [|discriminate]. exists l. split; [reflexivity|].
  minv H. assert (F : Forall (fun kv => Qk (fst kv) /\ Qv (snd kv)) a).
  { eapply mapM_Forall; [|exact Ha]. intros x w2 y w2' HF. unfold fill_pair in HF.
    minv HF. minv HF. injection HF as <- <-. cbn. split; [eapply HK; eassumption | eapply HV; eassumption]. }
  destruct (all_same P l a) eqn:S.
  - injection H as <- _. left. split; [reflexivity|].
    apply all_same_eq in S; [subst; assumption|]. symmetry. eapply mapM_length; eassumption.
  - right. eauto.
Qed.

(** ** [call] and [fill] *)

Lemma call_fill : forall f x w y w',
  call P f x w = (Ok y, w') ->
  (exists p, fill P f x w = (Ok (y, p), w')).
Proof.
  intros f x w y w' H. unfold call in H.
  assert (PL : bind (fill P f x) (fun p => ret (fst p)) w = (Ok y, w') -> exists p, fill P f x w = (Ok (y, p), w')).
  { intro HB. minv HB. injection HB as <- <-. destruct a as [z q]. eauto. }
  destruct f; auto.
  destruct (a_style a) eqn:ES; auto. destruct (a_validators a) eqn:EV; auto.
  injection H as <- <-. exists PHollow. cbn. unfold afill, bind, ret. rewrite ES, EV. reflexivity.
Qed.

(** [call] is [fill] without the kind of match *)
Lemma call_eq : forall f x w,
  call P f x w = match fill P f x w with (Ok (y, _), w') => (Ok y, w') | (Raise e, w') => (Raise e, w') end.
Proof.
  intros f x w. unfold call.
  assert (PL : bind (fill P f x) (fun p => ret (fst p)) w =
     match fill P f x w with (Ok (y, _), w') => (Ok y, w') | (Raise e, w') => (Raise e, w') end).
  { unfold bind. destruct (fill P f x w) as [[[y p]|e] w1]; reflexivity. }
  destruct f; auto. destruct (a_style a) eqn:ES; auto. destruct (a_validators a) eqn:EV; auto.
  cbn. unfold afill, bind, ret. rewrite ES, EV. reflexivity.
Qed.

(** ** Union *)

Lemma union_loop_in : forall x (fs : list (obj -> M W (obj * tpk))) best key w bs k w',
  union_loop fs x best key w = (Ok (bs, k), w') ->
  forall b, In b bs -> In b best \/
    exists n f p w1 w2, nth_error fs n = Some f /\ f x w1 = (Ok (b, p), w2) .
Proof.
  intros x; induction fs as [|f r IH]; intros best key w bs k w' H b HB; cbn in H.
  - injection H as <- <- <-. auto.
  - assert (LIFT : forall best', (exists best0 key0 w0, union_loop r x best0 key0 w0 = (Ok (bs, k), w') /\ best' = best0) ->
        In b best' \/ exists n g p w1 w2, nth_error (f :: r) n = Some g /\ g x w1 = (Ok (b, p), w2)).
    { intros best' (b0 & k0 & w0 & HU & ->). destruct (IH _ _ _ _ _ _ HU b HB) as [|(n & g & q & u & u' & Hn & Hg)]; [auto|].
      right. exists (S n), g, q, u, u'. auto. }
    destruct (f x w) as [[[v p]|e] w1] eqn:F.
    + destruct (rank_lt p key).
      * destruct (LIFT [v]) as [[->|[]]|R]; [eauto|right; exists 0, f, p, w, w1; auto|auto].
      * destruct (rank_eq p key).
        -- destruct (LIFT (best ++ [v])) as [HI|R]; [eauto| |auto].
           apply in_app_or in HI. destruct HI as [|[->|[]]]; [auto|]. right; exists 0, f, p, w, w1; auto.
        -- apply (LIFT best). eauto.
    + destruct (is_Exception e); [|discriminate].
      destruct best as [|b0 br]; [destruct r; [discriminate|]|]; apply LIFT; eauto.
Qed.

Lemma union_finish_in : forall best key w y p w',
  union_finish P best key w = (Ok (y, p), w') -> In y best /\ key = Some p /\ w' = w.
Proof.
  intros best key w y p w' H. unfold union_finish in H.
  destruct best as [|b r]; [discriminate|]. destruct key; [|discriminate].
  destruct (existsb _ r); [discriminate|]. injection H as <- <- <-. cbn; auto.
Qed.

End Proofs.
