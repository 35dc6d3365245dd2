(** Keywords_main.v -- proofs of the properties stated in Props_Keywords.v: constructing records from keywords in another order (records/record.py:212-226) *)

From Verif Require Import Base Py Select Filler Classes Runtime Record Spec_Record Spec_Seeds Spec_Keywords Demo DemoRt DemoCls.
From Verif Require Dict_proofs Record_proofs.
Open Scope string_scope.
Open Scope list_scope.

Import Dict_proofs Record_proofs.
Section Order.
Context {obj ty W : Type} (R : Rt obj ty W).
Notation P := (rt_py R).
Lemma keys_perm {A} : forall (d d' : dict A), Permutation d d' -> Permutation (keys d) (keys d').
Proof. intros. unfold keys. apply Permutation_map. assumption. Qed.
Lemma dmem_perm : forall (kw kw' : dict obj) k, Permutation kw kw' -> dmem k kw = dmem k kw'.
Proof.
  intros kw kw' k HP. apply keys_perm in HP. destruct (dmem k kw) eqn:E, (dmem k kw') eqn:E'; try reflexivity; exfalso.
  - apply dmem_In in E. apply dmem_false in E'. apply E'. eapply Permutation_in; eassumption.
  - apply dmem_In in E'. apply dmem_false in E. apply E. eapply Permutation_in; [apply Permutation_sym|]; eassumption.
Qed.
Lemma omitted_perm : forall (c : @cls obj ty W) kw kw', Permutation kw kw' -> omitted c kw = omitted c kw'.
Proof. intros c kw kw' HP. unfold omitted. apply filter_ext. intro k. rewrite (dmem_perm kw kw' k HP). reflexivity. Qed.
Lemma known_perm : forall (c : @cls obj ty W) kw kw', Permutation kw kw' -> known c kw -> known c kw'.
Proof. intros c kw kw' HP H k HI. apply H. eapply Permutation_in; [apply Permutation_sym, keys_perm; eassumption|assumption]. Qed.
Lemma complete_perm : forall (c : @cls obj ty W) kw kw', Permutation kw kw' -> complete c kw -> complete c kw'.
Proof. intros c kw kw' HP H k HI. apply H in HI. eapply Permutation_in; [apply keys_perm; eassumption|assumption]. Qed.
Lemma separate_sub : forall c (kw kw' : dict obj), (forall kv, In kv kw' -> In kv kw) -> separate R c kw -> separate R c kw'.
Proof. intros c kw kw' HS H k v g k' v' h A B. apply H; apply HS; assumption. Qed.
Lemma filled_perm : forall (c : @cls obj ty W) kw kw', Permutation kw kw' -> NoDup (keys kw) -> separate R c kw ->
  forall w vs w1, filled R c kw w vs w1 -> exists vs', filled R c kw' w vs' w1 /\ Permutation vs vs'.
Proof.
  intros c kw kw' HP. induction HP as [|[k v] l l' HP IH|[a va] [b vb] l|l1 l2 l3 H1 IH1 H2 IH2]; intros HN HS w vs w1 HF.
  - exists vs. split; [assumption|apply Permutation_refl].
  - inversion HF; subst. inversion HN; subst. edestruct IH as (vs' & HF' & HV); [assumption| |eassumption|].
    + apply (separate_sub c ((k, v) :: l)); [intros; right; assumption|assumption].
    + eexists. split; [econstructor; eassumption|constructor; assumption].
  - inversion HF as [|? ? ? fb yb ysb ? wb ? EB CB HB]; subst. inversion HB as [|? ? ? fa ya ys ? wa ? EA CA HA]; subst.
    assert (N : b <> a) by (inversion HN as [|? ? HX ?]; subst; intros ->; apply HX; left; reflexivity).
    destruct (HS b vb (call P (f_filler fb) vb) a va (call P (f_filler fa) va)
                (or_introl eq_refl) (or_intror (or_introl eq_refl)) N ltac:(eexists; split; [eassumption|reflexivity])
                ltac:(eexists; split; [eassumption|reflexivity]) _ _ _ _ _ CB CA) as (w' & C1 & C2).
    eexists. split; [econstructor; [exact EA|exact C1|econstructor; [exact EB|exact C2|exact HA]]|constructor].
  - destruct (IH1 HN HS _ _ _ HF) as (v2 & F2 & P2). edestruct IH2 as (v3 & F3 & P3); [| |exact F2|].
    + eapply Permutation_NoDup; [apply keys_perm; eassumption|assumption].
    + apply (separate_sub c l1); [|assumption]. intros kv HI. eapply Permutation_in; [apply Permutation_sym; eassumption|assumption].
    + exists v3. split; [assumption|]. eapply Permutation_trans; eassumption.
Qed.
(** the construction gets as far as calling post_new, having these values *)
Definition reaches (c : @cls obj ty W) kw w vs ds w2 : Prop := known c kw /\ complete c kw /\
  exists w1, filled R c kw w vs w1 /\ defaulted c (set_order R w1 (omitted c kw)) w1 ds w2.
Lemma build_cases : forall c kw w,
  (exists vs ds w2, reaches c kw w vs ds w2 /\
     build R c (none R) kw w = post_new_result R c (ref R (c_ty c) (List.length (heap R w2))) (snd (alloc R c (vs ++ ds) w2))) \/
  ((forall vs ds w2, ~ reaches c kw w vs ds w2) /\ exists e w', build R c (none R) kw w = (Raise e, w')).
Proof.
  intros c kw w. unfold build.
  destruct (forallb (fun k => dmem k (c_fields c)) (keys kw)) eqn:EK; cbn [negb].
  2:{ right. split; [|eexists; eexists; reflexivity]. intros vs ds w2 (HK & _). apply forallb_known in HK. congruence. }
  apply forallb_known in EK. unfold bind. destruct (fill_kwargs R c (none R) kw w) as [[[vs|]|e] w1] eqn:EF.
  2:{ destruct (fill_kwargs_none _ _ _ _ _ EF). }
  2:{ right. split; [|eexists; eexists; reflexivity]. intros vs ds w2 (_ & _ & w1' & HF & _). apply (fill_kwargs_filled R c (none R)) in HF. congruence. }
  destruct (forallb (fun k => dmem k kw) (required_keys (c_fields c))) eqn:EC; cbn [negb].
  2:{ right. split; [|eexists; eexists; reflexivity]. intros vs' ds w2 (_ & HC & _). apply forallb_complete in HC. congruence. }
  apply forallb_complete in EC. apply fill_kwargs_filled in EF. rewrite (omitted_optional c kw EC).
  destruct (fill_defaults c (set_order R w1 (omitted c kw)) w1) as [[ds|e] w2] eqn:ED.
  - left. exists vs, ds, w2. split.
    + split; [assumption|]. split; [assumption|]. exists w1. split; [assumption|]. apply fill_defaults_defaulted. assumption.
    + apply finish_none.
  - right. split; [|eexists; eexists; reflexivity]. intros vs' ds w2' (_ & _ & w1' & HF & HD).
    apply (fill_kwargs_filled R c (none R)) in HF. apply (fill_kwargs_filled R c (none R)) in EF. apply fill_defaults_defaulted in HD.
    assert (w1' = w1) by congruence. subst. congruence.
Qed.
Lemma reaches_perm : forall c kw kw' w vs ds w2, Permutation kw kw' -> NoDup (keys kw) -> separate R c kw ->
  reaches c kw w vs ds w2 -> exists vs', reaches c kw' w vs' ds w2 /\ Permutation vs vs'.
Proof.
  intros c kw kw' w vs ds w2 HP HN HS (HK & HC & w1 & HF & HD).
  destruct (filled_perm c kw kw' HP HN HS _ _ _ HF) as (vs' & HF' & HV). exists vs'. split; [|assumption].
  split; [eapply known_perm; eassumption|]. split; [eapply complete_perm; eassumption|]. exists w1. split; [assumption|].
  rewrite <- (omitted_perm c kw kw' HP). assumption.
Qed.
Lemma reaches_det : forall c kw w vs ds w2 vs' ds' w2', reaches c kw w vs ds w2 -> reaches c kw w vs' ds' w2' ->
  vs' = vs /\ ds' = ds /\ w2' = w2.
Proof.
  intros c kw w vs ds w2 vs' ds' w2' (_ & _ & w1 & HF & HD) (_ & _ & w1' & HF' & HD').
  apply (fill_kwargs_filled R c (none R)) in HF. apply (fill_kwargs_filled R c (none R)) in HF'. assert (w1' = w1 /\ vs' = vs) as [-> ->] by (split; congruence).
  apply fill_defaults_defaulted in HD. apply fill_defaults_defaulted in HD'. split; [reflexivity|]. split; congruence.
Qed.
Lemma alloc_order : forall c d d' w, Permutation d d' ->
  same_but_order R (ref R (c_ty c) (List.length (heap R w))) (snd (alloc R c d w)) (snd (alloc R c d' w)).
Proof.
  intros c d d' w HP. exists (Inst (c_ty c) d (if c_frozen c then SNone else SUnset)), d'.
  split; [apply lookup_alloc|]. split; [exact (lookup_alloc R c d' w)|]. split; [assumption|].
  unfold store. rewrite deref_ref. unfold alloc. cbn. rewrite heap_set, set_heap_twice. f_equal.
  generalize (heap R w). intros h. induction h as [|i r IH]; cbn; [reflexivity|]. f_equal. exact IH.
Qed.
End Order.

Lemma c153_post_new_proof : forall {obj ty W} (R : Rt obj ty W) n c kw kw' w,
  Permutation kw kw' -> NoDup (keys kw) -> no_reserved kw -> separate R c kw ->
  (exists x w1 w2, same_but_order R x w1 w2 /\
     construct R (S n) c None kw w = post_new_result R c x w1 /\ construct R (S n) c None kw' w = post_new_result R c x w2) \/
  (exists e e' w1 w2, construct R (S n) c None kw w = (Raise e, w1) /\ construct R (S n) c None kw' w = (Raise e', w2)).
Proof.
  intros obj ty W R n c kw kw' w HP HN HR HS.
  assert (HR' : no_reserved kw') by (intros k HI; apply HR; eapply Permutation_in; [apply Permutation_sym, keys_perm; eassumption|assumption]).
  assert (HN' : NoDup (keys kw')) by (eapply Permutation_NoDup; [apply keys_perm; eassumption|assumption]).
  assert (HS' : separate R c kw') by (eapply separate_sub; [|exact HS]; intros kv HI; eapply Permutation_in; [apply Permutation_sym; eassumption|assumption]).
  rewrite !(construct_plain R) by assumption.
  destruct (build_cases R c kw w) as [(vs & ds & w2 & HC & E)|[HC (e & w1 & E)]], (build_cases R c kw' w) as [(vs' & ds' & w2' & HC' & E')|[HC' (e' & w1' & E')]]; rewrite E, E'.
  - left. destruct (reaches_perm R c kw kw' _ _ _ _ HP HN HS HC) as (vs1 & HC1 & HV).
    destruct (reaches_det R c kw' w _ _ _ _ _ _ HC1 HC') as (-> & -> & ->).
    exists (ref R (c_ty c) (List.length (heap R w2))), (snd (alloc R c (vs ++ ds) w2)), (snd (alloc R c (vs1 ++ ds) w2)).
    split; [apply alloc_order, Permutation_app_tail; assumption|]. split; reflexivity.
  - exfalso. destruct (reaches_perm R c kw kw' _ _ _ _ HP HN HS HC) as (vs1 & HC1 & HV). eapply HC'; eassumption.
  - exfalso. destruct (reaches_perm R c kw' kw _ _ _ _ (Permutation_sym HP) HN' HS' HC') as (vs1 & HC1 & HV). eapply HC; eassumption.
  - right. exists e, e', w1, w1'. split; reflexivity.
Qed.

Lemma c153_order_proof : forall {obj ty W} (R : Rt obj ty W) n c kw kw' w,
  Permutation kw kw' -> NoDup (keys kw) -> no_reserved kw -> separate R c kw -> no_post_new R c ->
  match construct R (S n) c None kw w, construct R (S n) c None kw' w with
  | (Ok x, w1), (Ok y, w2) => y = x /\ same_but_order R x w1 w2
  | (Raise _, _), (Raise _, _) => True
  | _, _ => False
  end.
Proof.
  intros obj ty W R n c kw kw' w HP HN HR HS HQ.
  destruct (c153_post_new_proof R n c kw kw' w HP HN HR HS) as [(x & w1 & w2 & HB & E & E')|(e & e' & w1 & w2 & E & E')]; rewrite E, E'; [|exact I].
  unfold post_new_result, bind. rewrite !HQ, truth_none. cbn. split; [reflexivity|assumption].
Qed.

Section Settled.
Context {obj ty W : Type} (R : Rt obj ty W).
Lemma fill_settled : forall (c : @cls obj ty W) k e kw,
  (forall k' v, In (k', v) kw -> exists r, settled R c k' v r /\ (k' <> k -> exists y, r = Ok y) /\ (k' = k -> r = Raise e)) ->
  is_Exception e = true -> In k (keys kw) -> forall w, fill_kwargs R c (none R) kw w = (Raise (rewrap k e), w).
Proof.
  intros c k e kw. induction kw as [|[k1 v1] r IH]; intros HA HE HI w; [destruct HI|].
  destruct (HA k1 v1 (or_introl eq_refl)) as (o & (g & (f & EF & ->) & HG) & HN & HK). cbn [fill_kwargs]. rewrite EF, HG.
  destruct (string_dec k1 k) as [->|N].
  - rewrite (HK eq_refl), HE, is_none_none. reflexivity.
  - destruct (HN N) as (y & ->). unfold bind. rewrite IH; [reflexivity|intros; apply HA; right; assumption|assumption|].
    destruct HI as [HI|HI]; [contradiction|assumption].
Qed.
End Settled.

Lemma c153_error_proof : forall {obj ty W} (R : Rt obj ty W) n c kw kw' w k e,
  Permutation kw kw' -> no_reserved kw -> known c kw -> In k (keys kw) -> is_Exception e = true ->
  (forall k' v, In (k', v) kw -> exists r, settled R c k' v r /\ (k' <> k -> exists y, r = Ok y) /\ (k' = k -> r = Raise e)) ->
  exists e', construct R (S n) c None kw w = (Raise e', w) /\ construct R (S n) c None kw' w = (Raise e', w).
Proof.
  intros obj ty W R n c kw kw' w k e HP HR HK HI HE HA. exists (rewrap k e).
  assert (HQ := Permutation_sym (keys_perm _ _ HP)).
  assert (HX : forall l, Permutation kw l -> construct R (S n) c None l w = (Raise (rewrap k e), w)).
  { intros l HL. assert (HL' := Permutation_sym (keys_perm _ _ HL)). rewrite (construct_plain R).
    - unfold build. assert (HK' := known_perm c kw l HL HK). apply forallb_known in HK'. rewrite HK'. cbn [negb].
      unfold bind at 1. rewrite (fill_settled R c k e l); [reflexivity| |assumption|].
      + intros k' v HV. apply HA. eapply Permutation_in; [apply Permutation_sym; eassumption|assumption].
      + eapply Permutation_in; [apply Permutation_sym; exact HL'|assumption].
    - intros k' HV. apply HR. eapply Permutation_in; eassumption. }
  split; apply HX; [apply Permutation_refl|assumption].
Qed.

Lemma c153_errors_refuted_proof : exists (R : Rt dobj dty rstate) d c e e' w,
  make_class (rt_py R) d = Ok c /\
  construct R 1 c None [("a", DNone); ("b", DNone)] w = (Raise e, w) /\ construct R 1 c None [("b", DNone); ("a", DNone)] w = (Raise e', w) /\
  exc_msg e = "error filling filling a" /\ exc_msg e' = "error filling filling b".
Proof.
  exists (demo_rt 0), (rdecl 0 false false (Some false) SCheck [("a", (an TInt, NoDefault)); ("b", (an TInt, NoDefault))] [] no_post).
  eexists. eexists. eexists. exists (RState [] [] []). split; [reflexivity|]. split; [reflexivity|]. split; [reflexivity|]. split; reflexivity.
Qed.
