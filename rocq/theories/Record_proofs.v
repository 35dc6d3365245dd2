(** Record_proofs.v -- lemmas about constructing records. *)
From Verif Require Import Base Dict_proofs Py Select Filler Filler_proofs Classes Runtime Record Spec_Record.

(** subclasses of subclasses *)
Lemma descends_more : forall (p q : exc_class -> bool), (forall c, p c = true -> q c = true) ->
  forall c, descends_from p c = true -> descends_from q c = true.
Proof.
  intros p q H. fix F 1. intros c HC. destruct c as [| | | | | | | | | | |n k|n|n bs k]; cbn in *;
    try (apply orb_true_iff in HC; destruct HC as [HC|HC]; [apply H in HC; rewrite HC; reflexivity|discriminate]).
  apply orb_true_iff in HC. destruct HC as [HC|HC]; [apply H in HC; rewrite HC; reflexivity|].
  apply orb_true_iff. right. induction bs as [|b r IH]; cbn in *; [discriminate|].
  apply orb_true_iff in HC. apply orb_true_iff. destruct HC as [HC|HC]; [left; apply F; exact HC|right; apply IH; exact HC].
Qed.
Lemma AttributeError_Exception : forall e, is_AttributeError e = true -> is_Exception e = true.
Proof. intro e. apply descends_more. intros []; cbn; congruence. Qed.
Lemma KeyError_Exception : forall e, is_KeyError e = true -> is_Exception e = true.
Proof. intro e. apply descends_more. intros []; cbn; congruence. Qed.
Lemma ParseFailure_Exception : forall e, is_ParseFailure e = true -> is_Exception e = true.
Proof. intro e. apply descends_more. intros []; cbn; congruence. Qed.

Section Monad.
Context {W : Type}.

Lemma bind_ok : forall {A B} (m : M W A) (k : A -> M W B) w b w',
  bind m k w = (Ok b, w') <-> exists a w1, m w = (Ok a, w1) /\ k a w1 = (Ok b, w').
Proof.
  intros A B m k w b w'. unfold bind. destruct (m w) as [[a|e] w1]; split.
  - intro H. exists a, w1. auto.
  - intros (a' & w1' & E & H). injection E as -> ->. assumption.
  - intro H. discriminate.
  - intros (a' & w1' & E & H). discriminate.
Qed.

Lemma bind_raise : forall {A B} (m : M W A) (k : A -> M W B) w e w',
  bind m k w = (Raise e, w') <->
  m w = (Raise e, w') \/ exists a w1, m w = (Ok a, w1) /\ k a w1 = (Raise e, w').
Proof.
  intros A B m k w e w'. unfold bind. destruct (m w) as [[a|e0] w1]; split.
  - intro H. right. exists a, w1. auto.
  - intros [H|(a' & w1' & E & H)]; [discriminate|]. injection E as -> ->. assumption.
  - intro H. left. congruence.
  - intros [H|(a' & w1' & E & H)]; [congruence|discriminate].
Qed.

Lemma mapM_ok_keys : forall {A B} (f : A -> M W B) l w r w', mapM f l w = (Ok r, w') -> List.length r = List.length l.
Proof.
  intros A B f. induction l as [|a l IH]; intros w r w' H; cbn in H.
  - injection H as <- <-. reflexivity.
  - apply bind_ok in H. destruct H as (b & w1 & _ & H). apply bind_ok in H. destruct H as (bs & w2 & E & H).
    injection H as <- <-. cbn. f_equal. eapply IH. eassumption.
Qed.

End Monad.

Ltac minv H := let a := fresh "a" in let w1 := fresh "w" in let E := fresh "E" in
  apply bind_ok in H; destruct H as (a & w1 & E & H).

Section Record.
Context {obj ty W : Type} (R : Rt obj ty W).
Notation P := (rt_py R).
Notation field := (@field obj ty W).
Notation cls := (@cls obj ty W).

Lemma is_none_none : is_none R (none R) = true.
Proof. unfold is_none. destruct (py_isP P (none R) (none R)); congruence. Qed.
Lemma is_none_false : forall x, x <> none R -> is_none R x = false.
Proof. intros x N. unfold is_none. destruct (py_isP P x (none R)); congruence. Qed.
Lemma is_none_ref : forall t n, is_none R (ref R t n) = false.
Proof. intros. apply is_none_false. apply ref_not_none. Qed.

(** ** The heap *)

Lemma lookup_alloc : forall c vs w,
  lookup R (snd (alloc R c vs w)) (ref R (c_ty c) (List.length (heap R w))) =
  Some (Inst (c_ty c) vs (if c_frozen c then SNone else SUnset)).
Proof.
  intros. unfold lookup, alloc. cbn. rewrite deref_ref, heap_set, nth_error_app2, Nat.sub_diag by lia. reflexivity.
Qed.

Lemma nth_replace_same : forall n (i : inst obj ty) h, n < List.length h -> nth_error (replace n i h) n = Some i.
Proof. induction n as [|n IH]; intros i [|j r] H; cbn in *; try lia; [reflexivity|]. apply IH. lia. Qed.
Lemma nth_replace_other : forall n m (i : inst obj ty) h, n <> m -> nth_error (replace n i h) m = nth_error h m.
Proof.
  induction n as [|n IH]; intros [|m] i [|j r] H; cbn; try reflexivity; try lia. apply IH. lia.
Qed.
Lemma length_replace : forall n (i : inst obj ty) h, List.length (replace n i h) = List.length h.
Proof. induction n as [|n IH]; intros i [|j r]; cbn; try reflexivity. f_equal. apply IH. Qed.

Lemma lookup_store_same : forall x i j w, lookup R w x = Some j -> lookup R (store R x i w) x = Some i.
Proof.
  intros x i j w H. unfold lookup, store in *. destruct (deref R x) as [n|]; [|discriminate].
  rewrite heap_set. apply nth_replace_same. apply nth_error_Some. congruence.
Qed.
Lemma lookup_store_other : forall x y i w, deref R x <> deref R y -> lookup R (store R x i w) y = lookup R w y.
Proof.
  intros x y i w H. unfold lookup, store. destruct (deref R x) as [n|]; [|reflexivity].
  destruct (deref R y) as [m|]; [|reflexivity]. rewrite heap_set. apply nth_replace_other. congruence.
Qed.
Lemma lookup_store_deref : forall x y i j w, deref R x = deref R y -> lookup R w x = Some j -> lookup R (store R x i w) y = Some i.
Proof.
  intros x y i j w E H. unfold lookup. rewrite <- E. exact (lookup_store_same x i j w H).
Qed.

(** ** Filling and defaults *)

Lemma fill_kwargs_filled : forall c p kw w vs w1,
  fill_kwargs R c p kw w = (Ok (Some vs), w1) <-> filled R c kw w vs w1.
Proof.
  intros c p. induction kw as [|[k v] r IH]; intros w vs w1; cbn.
  - split; intro H; [injection H as <- <-; constructor|inversion H; reflexivity].
  - destruct (dget k (c_fields c)) as [f|] eqn:EF.
    2:{ split; intro H; [discriminate|]. inversion H; congruence. }
    destruct (call P (f_filler f) v w) as [[y|e] wa] eqn:EC.
    + split; intro H.
      * minv H. destruct a as [ys|]; [|discriminate]. injection H as <- <-. econstructor; eauto. apply IH. assumption.
      * inversion H as [|? ? ? f0 ? ? ? ? ? HF HC HR]; subst. rewrite EF in HF. injection HF as <-. rewrite EC in HC. injection HC as <- <-.
        apply bind_ok. exists (Some ys), w1. split; [apply IH; assumption|reflexivity].
    + split; intro H.
      * destruct (is_Exception e); cbn in H; [|discriminate]. destruct (is_none R p); discriminate.
      * inversion H as [|? ? ? f0 ? ? ? ? ? HF HC HR]; subst. rewrite EF in HF. injection HF as <-. rewrite EC in HC. discriminate.
Qed.

Lemma fill_kwargs_none : forall c kw w w1, fill_kwargs R c (none R) kw w <> (Ok None, w1).
Proof.
  intros c. induction kw as [|[k v] r IH]; intros w w1 H; cbn in H; [discriminate|].
  destruct (dget k (c_fields c)) as [f|]; [|discriminate].
  destruct (call P (f_filler f) v w) as [[y|e] wa].
  - minv H. destruct a; [discriminate|]. eapply IH; eassumption.
  - rewrite is_none_none in H. destruct (is_Exception e); discriminate.
Qed.

Lemma filled_keys : forall c kw w vs w1, filled R c kw w vs w1 -> keys vs = keys kw.
Proof. intros c kw w vs w1 H. induction H; cbn in *; [reflexivity|]. unfold keys in *. cbn. congruence. Qed.

Lemma filled_get : forall c kw w vs w1 k v, filled R c kw w vs w1 -> dget k kw = Some v ->
  exists f y wa wb, dget k (c_fields c) = Some f /\ dget k vs = Some y /\ call P (f_filler f) v wa = (Ok y, wb).
Proof.
  intros c kw w vs w1 k v H. induction H as [|k' v' r f y ys w w1 w2 HF HC H IH]; intro E; cbn in *; [discriminate|].
  destruct (String.eqb_spec k k') as [->|N].
  - injection E as ->. exists f, y, w, w1. auto.
  - apply IH. assumption.
Qed.

Lemma filled_app : forall c a b w vs w2, filled R c (a ++ b) w vs w2 <->
  exists v1 v2 w1, filled R c a w v1 w1 /\ filled R c b w1 v2 w2 /\ vs = v1 ++ v2.
Proof.
  intros c. induction a as [|[k v] r IH]; intros b w vs w2; cbn.
  - split.
    + intro H. exists [], vs, w. split; [constructor|auto].
    + intros (v1 & v2 & w1 & H1 & H2 & ->). inversion H1; subst. assumption.
  - split.
    + intro H. inversion H as [|? ? ? f0 ? ? ? ? ? HF HC HR]; subst. apply IH in HR. destruct HR as (v1 & v2 & w3 & H1 & H2 & ->).
      exists ((k, y) :: v1), v2, w3. split; [econstructor; eassumption|auto].
    + intros (v1 & v2 & w1 & H1 & H2 & ->). inversion H1; subst. cbn. econstructor; [eassumption|eassumption|].
      apply IH. do 3 eexists. eauto.
Qed.

Lemma make_default_of : forall (f : field) w v w1, make_default f w = (Ok v, w1) <-> default_of f w v w1.
Proof.
  intros f w v w1. unfold make_default. destruct (f_default f) as [|d|g] eqn:E; split; intro H.
  - discriminate.
  - inversion H; congruence.
  - injection H as <- <-. constructor. assumption.
  - inversion H; subst; [|congruence]. assert (d = v) by congruence. subst. reflexivity.
  - econstructor; eassumption.
  - inversion H; subst; [congruence|]. assert (g0 = g) by congruence. subst. assumption.
Qed.

Lemma fill_defaults_defaulted : forall (c : cls) ks w ds w1,
  fill_defaults c ks w = (Ok ds, w1) <-> defaulted c ks w ds w1.
Proof.
  intros c. induction ks as [|k r IH]; intros w ds w1; cbn.
  - split; intro H; [injection H as <- <-; constructor|inversion H; reflexivity].
  - split; intro H.
    + minv H. minv H. injection H as <- <-. destruct (dget k (c_fields c)) as [f|] eqn:EF; [|discriminate].
      econstructor; [eassumption|apply make_default_of; eassumption|apply IH; assumption].
    + inversion H as [|? ? f0 v vs ? w2 ? HF HD HR]; subst. rewrite HF. apply bind_ok. exists v, w2. split; [apply make_default_of; assumption|].
      apply bind_ok. exists vs, w1. split; [apply IH; assumption|reflexivity].
Qed.

Lemma defaulted_keys : forall (c : cls) ks w ds w1, defaulted c ks w ds w1 -> keys ds = ks.
Proof. intros c ks w ds w1 H. induction H; cbn; [reflexivity|]. unfold keys in *. congruence. Qed.

Lemma defaulted_get : forall (c : cls) ks w ds w1 k, defaulted c ks w ds w1 -> In k ks ->
  exists f v wa wb, dget k (c_fields c) = Some f /\ dget k ds = Some v /\ default_of f wa v wb.
Proof.
  intros c ks w ds w1 k H. induction H as [|k' r f v vs w w1 w2 HF HD H IH]; intro HI; [destruct HI|]. cbn.
  destruct (String.eqb_spec k k') as [->|N].
  - exists f, v, w, w1. auto.
  - destruct HI as [->|HI]; [congruence|]. apply IH. assumption.
Qed.

Lemma omitted_optional : forall (c : cls) (kw : dict obj), complete c kw ->
  filter (fun k => negb (dmem k kw)) (optional_keys (c_fields c)) = omitted c kw.
Proof.
  intros c kw HC. unfold optional_keys, omitted. induction (keys (c_fields c)) as [|k r IH]; cbn; [reflexivity|].
  destruct (smem k (required_keys (c_fields c))) eqn:ER; cbn.
  - apply smem_In in ER. apply HC in ER. apply dmem_In in ER. rewrite ER. cbn. exact IH.
  - destruct (dmem k kw); cbn; [|f_equal]; exact IH.
Qed.

Lemma forallb_known : forall (c : cls) (kw : dict obj), forallb (fun k => dmem k (c_fields c)) (keys kw) = true <-> known c kw.
Proof. intros. rewrite forallb_forall. unfold known. split; intros H k HI; apply dmem_In; apply H; assumption. Qed.
Lemma forallb_complete : forall (c : cls) (kw : dict obj), forallb (fun k => dmem k kw) (required_keys (c_fields c)) = true <-> complete c kw.
Proof. intros. rewrite forallb_forall. unfold complete. split; intros H k HI; apply dmem_In; apply H; assumption. Qed.

(** ** finish and build without a parse result standing by *)

Lemma finish_none : forall c vs w,
  finish R c (none R) vs w = post_new_result R c (ref R (c_ty c) (List.length (heap R w))) (snd (alloc R c vs w)).
Proof.
  intros c vs w. change (finish R c (none R) vs w) with
    (match post_new_result R c (ref R (c_ty c) (List.length (heap R w))) (snd (alloc R c vs w)) with
     | (Ok s, w1) => if is_none R (none R) then (Ok s, w1) else
         (Raise (mkexc TypeError "positional argument can be interpreted both as trivial argument and as unary argument"), w1)
     | (Raise e, w1) => if negb (is_Exception e) then (Raise e, w1) else
         (let* t := truth R (none R) in if t then ret (none R) else raise e) w1
     end).
  destruct (post_new_result R c (ref R (c_ty c) (List.length (heap R w))) (snd (alloc R c vs w))) as [[s|e] w3].
  - rewrite is_none_none. reflexivity.
  - unfold none. rewrite truth_none. cbn. destruct (is_Exception e); reflexivity.
Qed.

Lemma build_ok : forall c kw w x w',
  build R c (none R) kw w = (Ok x, w') <->
  known c kw /\ complete c kw /\
  exists vs w1 ds w2, filled R c kw w vs w1 /\ defaulted c (set_order R w1 (omitted c kw)) w1 ds w2 /\
    post_new_result R c (ref R (c_ty c) (List.length (heap R w2))) (snd (alloc R c (vs ++ ds) w2)) = (Ok x, w').
Proof.
  intros c kw w x w'. unfold build.
  destruct (forallb (fun k => dmem k (c_fields c)) (keys kw)) eqn:EK; cbn [negb].
  2:{ split; [discriminate|]. intros (HK & _). apply forallb_known in HK. congruence. }
  apply forallb_known in EK. rewrite bind_ok. split.
  - intros (ov & w1 & E1 & H). destruct ov as [vs|]; [|destruct (fill_kwargs_none _ _ _ _ E1)].
    destruct (forallb (fun k => dmem k kw) (required_keys (c_fields c))) eqn:EC; cbn [negb] in H; [|discriminate].
    apply forallb_complete in EC. split; [assumption|]. split; [assumption|].
    minv H. apply fill_defaults_defaulted in E. rewrite omitted_optional in E by assumption.
    rewrite finish_none in H. exists vs, w1, a, w0. split; [apply fill_kwargs_filled in E1; assumption|auto].
  - intros (_ & HC & vs & w1 & ds & w2 & HF & HD & HP). exists (Some vs), w1. split; [apply fill_kwargs_filled; assumption|].
    apply forallb_complete in HC as EC. rewrite EC. cbn [negb].
    apply bind_ok. exists ds, w2. split; [rewrite omitted_optional by assumption; apply fill_defaults_defaulted; assumption|].
    rewrite finish_none. assumption.
Qed.

Lemma build_fill_error : forall c kw pre k v post f vs w w1 e w2,
  known c kw -> kw = pre ++ (k, v) :: post -> filled R c pre w vs w1 ->
  dget k (c_fields c) = Some f -> call P (f_filler f) v w1 = (Raise e, w2) -> is_Exception e = true ->
  build R c (none R) kw w = (Raise (rewrap k e), w2).
Proof.
  intros c kw pre k v post f vs w w1 e w2 HK -> HF EF EC EX. unfold build. apply forallb_known in HK. rewrite HK. cbn [negb].
  apply bind_raise. left. clear HK. induction HF as [w|k' v' r f' y ys w wa wb HF' HC' HR IH]; cbn.
  - rewrite EF, EC, EX, is_none_none. reflexivity.
  - rewrite HF', HC'. apply bind_raise. left. apply IH. assumption.
Qed.

Lemma rewrap_names : forall k e, (forall n, exc_ctor (exc_cls e) <> CtorFails n) -> names_field k e (rewrap k e).
Proof.
  intros k e NF. assert (G : forall s, (s ++ "")%string = s) by (induction s; cbn; congruence).
  unfold names_field, rewrap. destruct (exc_ctor (exc_cls e)) as [| |n]; [| |destruct (NF n eq_refl)]; cbn [exc_cause exc_cls exc_msg];
    (split; [reflexivity|]); (split; [reflexivity|]); exists "error filling filling "%string, ""%string;
    rewrite G; reflexivity.
Qed.

(** ** The constructor *)

Lemma reserved_get : forall (kw : dict obj) k, no_reserved kw -> reserved k -> dget k kw = None.
Proof. intros kw k H HR. apply dget_None. intro HI. exact (H k HI HR). Qed.

Lemma construct_plain : forall n c kw w, no_reserved kw ->
  construct R (S n) c None kw w = build R c (none R) kw w.
Proof.
  intros n c kw w HR. unfold construct, call_cls. unfold dmem.
  rewrite (reserved_get kw "cls"), (reserved_get kw "arg"), (reserved_get kw "self") by (unfold reserved; auto).
  cbn [new]. unfold bind. destruct (build R c (none R) kw w) as [[x|e] w1]; [|reflexivity].
  rewrite andb_false_r. reflexivity.
Qed.

Lemma construct_O : forall c pos kw w x w', construct R 0 c pos kw w <> (Ok x, w').
Proof.
  intros c pos kw w x w' H. unfold construct, call_cls in H. destruct (dmem "cls" kw); [discriminate|].
  minv H. destruct pos, (dget "arg" kw); discriminate.
Qed.

End Record.
