(** Extras_main.v -- proofs of the properties stated in Props_Extras.v: the modules of records.extras (records/extras.py) *)

From Verif Require Import Base Py Select Filler Spec_Filler Classes Spec_Classes Runtime Record Spec_Record Spec_Hist Tokens Streams Extras Spec_Extras Demo DemoRt DemoCls.
From Verif Require Record_inv Hist_proofs Hist_main.
Open Scope string_scope.
Open Scope list_scope.

Section Extras_main.
Context {obj ty W : Type} (E : @Extras obj W) (R : Rt obj ty W) (ctx : ty -> option (@cls obj ty W)) (used : W -> list use).
Notation K := (uses_current E used).
Hypothesis PUTS : puts E used.
Hypothesis APART : apart E R used.
Hypothesis NOTES : modules_note E used.
Hypothesis PO : program_obeys R (keeping K) ctx.

Lemma current_refl w : K w w.
Proof. split; [reflexivity|]. split; [reflexivity|]. exists []. rewrite app_nil_r. auto. Qed.
Lemma current_trans a b c : K a b -> K b c -> K a c.
Proof.
  intros (A1 & A2 & us & A3 & A4) (B1 & B2 & vs & B3 & B4). split; [congruence|]. split; [congruence|].
  exists (us ++ vs). rewrite B3, A3, app_assoc. split; [reflexivity|]. apply Forall_app. split; [exact A4|]. rewrite <- A1, <- A2. exact B4.
Qed.
Lemma current_same w w' : extras_json E w' = extras_json E w /\ extras_pickle E w' = extras_pickle E w /\ used w' = used w -> K w w'.
Proof. intros (A & B & C). split; [exact A|]. split; [exact B|]. exists []. rewrite app_nil_r. auto. Qed.
Lemma current_store x i w : K w (store R x i w).
Proof. unfold store. destruct (deref R x); [|apply current_refl]. apply current_same. apply (proj1 APART). Qed.
Lemma current_json {A} (f : nat -> M W A) : (forall m, notes E used (UJson m) (f m)) -> obeys (keeping K) (fun w => f (extras_json E w) w).
Proof.
  intros H w. destruct (H (extras_json E w) w) as (us & _ & H2). specialize (H2 (or_introl eq_refl)).
  destruct (f (extras_json E w) w) as [[a|e] w1]; exact H2.
Qed.
Lemma current_pickle {A} (f : nat -> M W A) : (forall m, notes E used (UPickle m) (f m)) -> obeys (keeping K) (fun w => f (extras_pickle E w) w).
Proof.
  intros H w. destruct (H (extras_pickle E w) w) as (us & _ & H2). specialize (H2 (or_intror eq_refl)).
  destruct (f (extras_pickle E w) w) as [[a|e] w1]; exact H2.
Qed.
Lemma with_extras_obeys : program_obeys (with_extras E R) (keeping K) ctx.
Proof.
  destruct PO as [OO CC]. split.
  - destruct OO. destruct NOTES as (N1 & N2 & N3). constructor; cbn [with_extras rt_py v_eq v_ne v_cmp ext_cmp v_hash ext_attr v_repr truth m_iter m_item unpack as_dict json_loads json_dumps deep_copy pickle_values]; auto.
    + intros x. apply (current_json (fun m => j_loads (json_modules E m) x)). intros m. apply N1.
    + intros d. apply (current_json (fun m => j_dumps (json_modules E m) d)). intros m. apply N2.
    + intros l. apply (current_pickle (fun m => p_values (pickle_modules E m) l)). intros m. apply N3.
  - intros t c H. destruct (CC t c H) as [H1 H2]. split; [exact H1|]. clear H H1. induction H2 as [d c H1 H2 H3 H4 IH]. econstructor; eassumption.
Qed.
Lemma do_current a w : allowed ctx K a -> K w (after (with_extras E R) ctx a w).
Proof.
  assert (CL : Filler_inv.closed_rel (keeping K)) by (apply Hist_proofs.keeping_closed; [apply current_refl|apply current_trans]).
  intros HA.
  assert (BS : forall t c, ctx t = Some c -> Record_inv.build_ok_sat (with_extras E R) (keeping K) c).
  { intros t c Ec. apply Record_inv.build_sat; [exact CL|apply Hist_proofs.objects_obey_sat; apply with_extras_obeys| |].
    - apply (fun H => proj1 (Hist_proofs.class_obeys_sat (with_extras E R) (keeping K) CL (proj1 with_extras_obeys) H c (proj2 (proj2 with_extras_obeys t c Ec)))).
      intros l t' w'. apply current_same. apply (proj2 APART).
    - intros c0 vs w0. apply current_same. apply (proj1 APART). }
  apply (Hist_proofs.after_kept_by (with_extras E R) ctx K current_refl current_trans); auto.
  - intros l t w'. apply current_same. apply (proj2 APART).
  - intros w0 x i c w1 j z _ _ _ _ HK _. eapply current_trans; [exact HK|]. apply current_store.
  - exact with_extras_obeys.
  - destruct a as [x k v| | | | | | | | | | | | | | |]; cbn; try exact I. intros w0. unfold setattr.
    destruct (lookup (with_extras E R) w0 x) as [i|]; [|apply current_refl]. destruct (ctx (i_cls i)) as [c|]; [|apply current_refl].
    destruct (String.eqb k "_hash"); [apply current_store|]. destruct (c_frozen c); [apply current_refl|apply current_store].
Qed.
Lemma run_follows : forall l w, Forall (event_allowed E ctx used) l ->
  exists us, used (run E R ctx l w) = used w ++ us /\ follows (extras_json E w) (extras_pickle E w) l us.
Proof.
  induction l as [|e l IH]; intros w F; [exists []; rewrite app_nil_r; split; [reflexivity|constructor]|].
  inversion F as [|? ? H F']; subst. destruct e as [m|m|a]; cbn [run].
  - destruct (IH (put_json E m w) F') as (us & A & B). destruct (PUTS m w) as [(P1 & P2 & P3) _]. rewrite P1, P2 in B. rewrite P3 in A. exists us. split; [exact A|]. constructor. exact B.
  - destruct (IH (put_pickle E m w) F') as (us & A & B). destruct (PUTS m w) as [_ (P1 & P2 & P3)]. rewrite P1, P2 in B. rewrite P3 in A. exists us. split; [exact A|]. constructor. exact B.
  - destruct (do_current a w H) as (P1 & P2 & vs & P3 & P4). destruct (IH (after (with_extras E R) ctx a w) F') as (us & A & B).
    rewrite P1, P2 in B. rewrite P3, <- app_assoc in A. exists (vs ++ us). split; [exact A|]. constructor; assumption.
Qed.
Lemma run_last : forall l w, Forall (event_allowed E ctx used) l ->
  extras_json E (run E R ctx l w) = last_json l (extras_json E w) /\ extras_pickle E (run E R ctx l w) = last_pickle l (extras_pickle E w).
Proof.
  induction l as [|e l IH]; intros w F; [split; reflexivity|]. inversion F as [|? ? H F']; subst. destruct e as [m|m|a]; cbn [run last_json last_pickle fold_left].
  - destruct (IH (put_json E m w) F') as [A B]. destruct (PUTS m w) as [(P1 & P2 & P3) _]. rewrite P1 in A. rewrite P2 in B. split; assumption.
  - destruct (IH (put_pickle E m w) F') as [A B]. destruct (PUTS m w) as [_ (P1 & P2 & P3)]. rewrite P2 in A. rewrite P1 in B. split; assumption.
  - destruct (IH (after (with_extras E R) ctx a w) F') as [A B]. destruct (do_current a w H) as (P1 & P2 & _). rewrite P1 in A. rewrite P2 in B. split; assumption.
Qed.
Lemma to_dict_current x a s w d w1 : to_dict (with_extras E R) ctx x a s w = (Ok d, w1) -> extras_json E w1 = extras_json E w.
Proof.
  intros H. destruct (do_current (AToDict x a s) w I) as (P1 & _). cbn [after] in P1. rewrite H in P1. exact P1.
Qed.
End Extras_main.

Lemma c133_history_proof : forall {obj ty W} (E : @Extras obj W) (R : Rt obj ty W) ctx used,
  puts E used -> apart E R used -> modules_note E used -> program_obeys R (keeping (uses_current E used)) ctx ->
  forall l w, Forall (event_allowed E ctx used) l ->
  exists us, used (run E R ctx l w) = used w ++ us /\ follows (extras_json E w) (extras_pickle E w) l us.
Proof.
 intros obj ty W E R ctx used H1 H2 H3 H4. apply run_follows; assumption. Qed.

Lemma c133_json_proof : forall {obj ty W} (E : @Extras obj W) (R : Rt obj ty W) ctx used text_obj,
  puts E used -> apart E R used -> modules_note E used -> program_obeys R (keeping (uses_current E used)) ctx ->
  forall l w, Forall (event_allowed E ctx used) l ->
  let w' := run E R ctx l w in
  let R' := with_extras E R in
  let C := codecs_of_extras E text_obj in
  let m := json_modules E (last_json l (extras_json E w)) in
  (forall x a s d w1, to_dict R' ctx x a s w' = (Ok d, w1) ->
     to_json R' ctx x a s w' = j_dumps m d w1 /\
     forall args kw,
       to_json_text R' ctx C x a s args kw w' = (let* g := j_pieces m d args kw in join g) w1 /\
       forall dev c, to_json_io R' ctx C dev x a s args kw (w', c) = (let* g := aside (j_pieces m d args kw) in write_pieces dev g) (w1, c)) /\
  (forall n c s v, from_json R' n c s v w' = (let* x := j_loads m v in from_loaded R' n c s x) w') /\
  (forall n c s v kw, from_json_text R' C n c s v kw w' = (let* x := j_parse m v kw in from_loaded R' n c s x) w') /\
  (forall n c s kw t, from_json_io R' C n c s kw (w', t) = (let* x := aside (j_parse m (text_obj t) kw) in aside (from_loaded R' n c s x)) (w', "")).
Proof.
  intros obj ty W E R ctx used tx H1 H2 H3 H4 l w F. cbv zeta. destruct (run_last E R ctx used H1 H2 H3 H4 l w F) as [J _]. split; [|split; [|split]].
  - intros x a s d w1 Ed. pose proof (to_dict_current E R ctx used H2 H3 H4 _ _ _ _ _ _ Ed) as Ew. rewrite J in Ew. split; [|intros args kw; split].
    + unfold to_json, bind. rewrite Ed. cbn. rewrite Ew. reflexivity.
    + unfold to_json_text, bind at 1. rewrite Ed. unfold bind. cbn. rewrite Ew. reflexivity.
    + intros dev c. unfold to_json_io, bind at 1. unfold aside at 1. rewrite Ed. unfold bind, aside. cbn. rewrite Ew. reflexivity.
  - intros n c s v. unfold from_json, from_json_with, from_loaded, bind. cbn. rewrite J. reflexivity.
  - intros n c s v kw. unfold from_json_text, bind. cbn. rewrite J. reflexivity.
  - intros n c s kw t. unfold from_json_io, read_rest, bind, aside. cbn. rewrite J. reflexivity.
Qed.

Lemma c133_pickle_proof : forall {obj ty W} (E : @Extras obj W) (R : Rt obj ty W) ctx used text_obj,
  puts E used -> apart E R used -> modules_note E used -> program_obeys R (keeping (uses_current E used)) ctx ->
  forall l w, Forall (event_allowed E ctx used) l ->
  let w' := run E R ctx l w in
  let R' := with_extras E R in
  let C := codecs_of_extras E text_obj in
  let m := pickle_modules E (last_pickle l (extras_pickle E w)) in
  (forall x args kw, to_pickle C x args kw w' = (let* g := p_pieces m x args kw in join g) w') /\
  (forall x args kw dev c, to_pickle_io C dev x args kw (w', c) = (let* g := aside (p_pieces m x args kw) in write_pieces dev g) (w', c)) /\
  (forall n c b args kw v wc, p_parse m args kw (w', b) = (Ok v, wc) -> from_pickle R' C n c b args kw w' = from_pickled R' n c v (fst wc)) /\
  (forall n c b args kw e wc, p_parse m args kw (w', b) = (Raise e, wc) -> from_pickle R' C n c b args kw w' = (Raise e, fst wc)) /\
  (forall n c b args kw, from_pickle_io R' C n c args kw (w', b) = (let* v := p_parse m args kw in aside (from_pickled R' n c v)) (w', b)).
Proof.
  intros obj ty W E R ctx used tx H1 H2 H3 H4 l w F. cbv zeta. destruct (run_last E R ctx used H1 H2 H3 H4 l w F) as [_ J]. split; [|split; [|split; [|split]]].
  - intros. unfold to_pickle, bind. cbn. rewrite J. reflexivity.
  - intros. unfold to_pickle_io, bind, aside. cbn. rewrite J. reflexivity.
  - intros n c b args kw v wc Ep. unfold from_pickle. cbn. rewrite J, Ep. reflexivity.
  - intros n c b args kw v wc Ep. unfold from_pickle. cbn. rewrite J, Ep. reflexivity.
  - intros. unfold from_pickle_io, bind. cbn. rewrite J. reflexivity.
Qed.

Lemma c133_pattern_proof : forall {obj ty W} (E : @Extras obj W) (X : Ops obj ty W) pattern a w check w1,
  new_full_match E X pattern a w = (Ok check, w1) ->
  exists fullmatch, re_compile (re_modules E (extras_re E w)) pattern w = (Ok fullmatch, w1) /\
    forall v w2,
      (forall w3, fullmatch v w2 = (Ok true, w3) -> check v w2 = (Ok v, w3)) /\
      (forall w3 s, a = AssertArgs (ErrText s) WarnFalse -> fullmatch v w2 = (Ok false, w3) -> check v w2 = (Raise (Exc ValueError s None), w3)).
Proof.
  intros obj ty W E X pattern a w check w1 H. unfold new_full_match in H.
  destruct (re_compile _ pattern w) as [[f|e] w1'] eqn:Ec; [|discriminate]. injection H as <- <-. exists f. split; [reflexivity|].
  intros v w2. split.
  - intros w3 Ef. unfold full_match, assert_inner, bind. rewrite Ef. reflexivity.
  - intros w3 s -> Ef. unfold full_match, assert_inner, bind. rewrite Ef. reflexivity.
Qed.
