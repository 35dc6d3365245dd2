(** Filler_exact.v -- fields without coercers and validators accept exactly the objects their
    annotation describes. *)
From Verif Require Import Base Py Filler Spec_Filler Spec_State Spec_Typing Filler_proofs Filler_shape Filler_eqs Filler_inv.

Section Exact.
Context {obj ty W : Type} (P : Py obj ty W).
Notation token := (@token obj ty W).
Notation hint := (@hint obj ty W).
Notation filler := (@filler obj ty W).
Notation afiller := (@afiller obj ty W).
Notation callback := (@callback obj W).
Notation akind := (@akind obj ty).
Notation free := (@callback_free obj ty W).

Hypothesis SUB : forall v b e, issubclass P v b = Raise e -> is_Exception e = true.
Hypothesis HSH : forall v e, hash_error P v = Some e -> is_Exception e = true.

(** [m] returns its argument if [B] holds of it, and raises an Exception otherwise *)
Definition decides {A} (m : obj -> M W A) (val : A -> obj) (B : obj -> Prop) : Prop :=
  forall v w, (exists r w', m v w = (Ok r, w') /\ val r = v /\ B v) \/
              (exists e w', m v w = (Raise e, w') /\ is_Exception e = true /\ ~ B v).
Notation dec_fill m B := (decides (A := obj * tpk) m fst B).
Notation dec_cb m B := (decides (A := obj) m (fun y => y) B).

Lemma decides_ext : forall A (m : obj -> M W A) val B B', (forall v, B v <-> B' v) -> decides m val B -> decides m val B'.
Proof.
  intros A m val B B' E H v w. destruct (H v w) as [(r & w' & H1 & H2 & H3)|(e & w' & H1 & H2 & H3)].
  - left. exists r, w'. rewrite <- E. auto.
  - right. exists e, w'. rewrite <- E. auto.
Qed.

Lemma call_decides : forall f B, dec_fill (fill P f) B -> dec_cb (call P f) B.
Proof.
  intros f B H v w. rewrite call_eq. unfold bind. destruct (H v w) as [(r & w' & -> & H2 & H3)|(e & w' & -> & H2 & H3)].
  - left. exists (fst r), w'. destruct r. split; [reflexivity|auto].
  - right. exists e, w'. auto.
Qed.

(** validators one after the other *)
Lemma validators_decide : forall (vs : list callback) (Bs : list (obj -> Prop)),
  Forall2 (fun c B => dec_cb c B) vs Bs -> dec_cb (@run_validators obj W vs) (fun v => Forall (fun B => B v) Bs).
Proof.
  induction 1 as [|c B vs Bs H _ IH]; intros v w.
  - left. exists v, w. cbn. auto.
  - cbn. unfold bind. destruct (H v w) as [(r & w' & -> & E & HB)|(e & w' & -> & X & HB)].
    + subst r. destruct (IH v w') as [(r & w2 & -> & -> & HF)|(e & w2 & -> & X & HF)].
      * left. exists v, w2. auto.
      * right. exists e, w2. split; [reflexivity|]. split; [assumption|]. intros F. inversion F; auto.
    + right. exists e, w'. split; [reflexivity|]. split; [assumption|]. intros F. inversion F; auto.
Qed.

(** what the type check of a kind decides, under style [s] *)
Definition kind_in (s : style) (k : akind) (v : obj) : Prop :=
  match k with
  | KSimple t => class_ok P s t v
  | KBool => class_ok P s (t_bool P) v
  | KNone => checked s (v = o_none P)
  | KEllipsis => checked s (v = o_ellipsis P)
  | KCallable => checked s (callable P v = true)
  | KLiteral _ vals => True
  end.

Lemma afill_decides : forall k own s vs Bs,
  (match k with KLiteral _ _ => False | _ => True end) ->
  Forall2 (fun c B => dec_cb c B) vs Bs ->
  dec_fill (afill P (AF k own s [] vs true)) (fun v => kind_in s k v /\ Forall (fun B => B v) Bs).
Proof.
  intros k own s vs Bs NL HV v w. apply validators_decide in HV.
  assert (V : forall p w1, (exists r w', (let* y := run_validators vs v in ret (y, p : tpk)) w1 = (Ok r, w') /\ fst r = v /\ Forall (fun B => B v) Bs) \/
      (exists e w', (let* y := run_validators vs v in ret (y, p)) w1 = (Raise e, w') /\ is_Exception e = true /\ ~ Forall (fun B => B v) Bs)).
  { intros p w1. unfold bind. destruct (HV v w1) as [(r & w' & -> & -> & HB)|(e & w' & -> & X & HB)].
    - left. exists (v, p), w'. auto.
    - right. exists e, w'. auto. }
  assert (T : (exists p, type_phase P k s [] v w = (Ok (v, p), w) /\ kind_in s k v) \/
              (exists e, type_phase P k s [] v w = (Raise e, w) /\ is_Exception e = true /\ ~ kind_in s k v)).
  { unfold type_phase. destruct s.
    - right. eexists. split; [reflexivity|]. split; [reflexivity|]. destruct k; cbn; auto.
    - left. eexists. split; [reflexivity|]. destruct k; cbn; auto.
    - assert (S : forall t, (exists p, (match simple_check P t v with TCExact => (Ok (v, PStrict), w) | TCInexact => (Ok (v, PNoCoerce), w) | _ => raise (mkexc TypeError "failed type checking") w end) = (Ok (v, p), w) /\ class_ok P SCheck t v) \/
           (exists e, (match simple_check P t v with TCExact => (Ok (v, PStrict), w) | TCInexact => (Ok (v, PNoCoerce), w) | _ => raise (mkexc TypeError "failed type checking") w end) = (Raise e, w) /\ is_Exception e = true /\ ~ class_ok P SCheck t v)).
      { intros t. unfold simple_check, class_ok. destruct (ty_eqP P (type_of P v) t) as [E|N]; [left; eexists; split; [reflexivity|auto]|].
        destruct (isinstance P v t); [left; eexists; split; [reflexivity|auto]|]. right. eexists. split; [reflexivity|]. split; [reflexivity|]. intros [?|?]; congruence. }
      destruct k; cbn [type_check style_eqb kind_in checked]; try apply S; try contradiction.
      + destruct (py_isP P v (o_none P)); [left; eexists; split; [reflexivity|assumption]|right; eexists; split; [reflexivity|split; [reflexivity|assumption]]].
      + destruct (py_isP P v (o_ellipsis P)); [left; eexists; split; [reflexivity|assumption]|right; eexists; split; [reflexivity|split; [reflexivity|assumption]]].
      + destruct (callable P v); [left; eexists; split; [reflexivity|reflexivity]|right; eexists; split; [reflexivity|split; [reflexivity|discriminate]]].
    - assert (S : forall t, (exists p, (match simple_check P t v with TCExact => (Ok (v, PStrict), w) | TCInexact => raise (mkexc TypeError "failed type checking") w | _ => raise (mkexc TypeError "failed type checking") w end) = (Ok (v, p), w) /\ class_ok P SStrict t v) \/
           (exists e, (match simple_check P t v with TCExact => (Ok (v, PStrict), w) | TCInexact => raise (mkexc TypeError "failed type checking") w | _ => raise (mkexc TypeError "failed type checking") w end) = (Raise e, w) /\ is_Exception e = true /\ ~ class_ok P SStrict t v)).
      { intros t. unfold simple_check, class_ok. destruct (ty_eqP P (type_of P v) t) as [E|N]; [left; eexists; split; [reflexivity|auto]|].
        destruct (isinstance P v t); (right; eexists; split; [reflexivity|]; split; [reflexivity|assumption]). }
      destruct k; cbn [type_check style_eqb kind_in checked]; try apply S; try contradiction.
      + destruct (py_isP P v (o_none P)); [left; eexists; split; [reflexivity|assumption]|right; eexists; split; [reflexivity|split; [reflexivity|assumption]]].
      + destruct (py_isP P v (o_ellipsis P)); [left; eexists; split; [reflexivity|assumption]|right; eexists; split; [reflexivity|split; [reflexivity|assumption]]].
      + destruct (callable P v); [left; eexists; split; [reflexivity|reflexivity]|right; eexists; split; [reflexivity|split; [reflexivity|discriminate]]]. }
  assert (EQ : afill P (AF k own s [] vs true) v w =
    match type_phase P k s [] v w with
    | (Ok p, w1) => (let* y := run_validators vs (fst p) in ret (y, snd p)) w1
    | (Raise e, w1) => (Raise e, w1)
    end) by reflexivity.
  rewrite EQ. clear EQ.
  destruct T as [(p & -> & K)|(e & -> & X & K)].
  - cbn [fst snd]. destruct (V p w) as [(r & w' & -> & E & HB)|(e & w' & -> & X & HB)].
    + left. exists r, w'. auto.
    + right. exists e, w'. split; [reflexivity|]. split; [assumption|]. tauto.
  - right. exists e, w. split; [reflexivity|]. split; [assumption|]. tauto.
Qed.

Lemma literal_decides : forall lid vals own s,
  dec_fill (afill P (AF (KLiteral lid vals) own s [] (lit_validators P (KLiteral lid vals) s) true))
    (fun v => checked s (exists l, In l vals /\ type_of P v = type_of P l /\ lit_eq P v l = true)).
Proof.
  intros lid vals own s v w.
  assert (LM : lit_mem P vals v = true <-> exists l, In l vals /\ type_of P v = type_of P l /\ lit_eq P v l = true).
  { unfold lit_mem. rewrite existsb_exists. split; intros (l & I & E); exists l; (split; [assumption|]).
    - apply andb_true_iff in E as [E1 E2]. destruct (ty_eqP P (type_of P v) (type_of P l)); [auto|discriminate].
    - destruct E as [-> ->]. destruct (ty_eqP P (type_of P l) (type_of P l)); [reflexivity|contradiction]. }
  assert (LV : forall w, exists w', literal_validator P lid vals v w = ((if lit_mem P vals v then Ok v else Raise (match hash_error P v with Some e => e | None => mkexc ValueError "" end)), w')).
  { intros u. unfold literal_validator. destruct (lit_mem P vals v); eexists; reflexivity. }
  assert (XE : is_Exception (match hash_error P v with Some e => e | None => mkexc ValueError "" end) = true).
  { destruct (hash_error P v) as [e|] eqn:E; [exact (HSH v e E)|reflexivity]. }
  assert (TM : lit_mem P vals v = true -> type_check P (KLiteral lid vals) v w = TCExact).
  { intros H. unfold lit_mem in H. apply existsb_exists in H as (l & I & E). apply andb_true_iff in E as [E _].
    cbn. replace (ty_mem P (type_of P v) (lit_types P lid vals w)) with true; [reflexivity|]. symmetry. unfold ty_mem. apply existsb_exists.
    exists (type_of P l). split; [|exact E]. unfold lit_types. apply in_or_app. left. apply in_map. exact I. }
  assert (EQ : forall s vs, afill P (AF (KLiteral lid vals) own s [] vs true) v w =
    match type_phase P (KLiteral lid vals) s [] v w with
    | (Ok p, w1) => (let* y := run_validators vs (fst p) in ret (y, snd p)) w1
    | (Raise e, w1) => (Raise e, w1)
    end) by reflexivity.
  rewrite EQ. clear EQ. unfold type_phase.
  destruct s; cbn [lit_validators style_eqb checked negb].
  - right. eexists; eexists. split; [reflexivity|]. split; [reflexivity|auto].
  - left. eexists; eexists. split; [reflexivity|]. split; [reflexivity|auto].
  - destruct (lit_mem P vals v) eqn:M.
    + rewrite TM by reflexivity. cbn [fst snd run_validators]. unfold bind. destruct (LV w) as [u ->]. left. eexists; eexists. split; [reflexivity|]. split; [reflexivity|]. apply LM; reflexivity.
    + right. assert (~ (exists l, In l vals /\ type_of P v = type_of P l /\ lit_eq P v l = true)) as N by (rewrite <- LM; discriminate).
      destruct (type_check P (KLiteral lid vals) v w); cbn [fst snd run_validators]; unfold bind; destruct (LV w) as [u E]; try rewrite E; (eexists; eexists; split; [reflexivity|]; split; [first [exact XE | reflexivity]|exact N]).
  - destruct (lit_mem P vals v) eqn:M.
    + rewrite TM by reflexivity. cbn [fst snd run_validators]. unfold bind. destruct (LV w) as [u ->]. left. eexists; eexists. split; [reflexivity|]. split; [reflexivity|]. apply LM; reflexivity.
    + right. assert (~ (exists l, In l vals /\ type_of P v = type_of P l /\ lit_eq P v l = true)) as N by (rewrite <- LM; discriminate).
      destruct (type_check P (KLiteral lid vals) v w); cbn [fst snd run_validators]; unfold bind; destruct (LV w) as [u E]; try rewrite E; (eexists; eexists; split; [reflexivity|]; split; [first [exact XE | reflexivity]|exact N]).
Qed.

(** ** The validators of containers *)

Lemma type_validator_decides : forall b, dec_cb (type_validator P b) (fun v => issubclass P v b = Ok true).
Proof.
  intros b v w. unfold type_validator. destruct (issubclass P v b) as [[|]|e] eqn:E.
  - left. exists v, w. auto.
  - right. eexists; exists w. split; [reflexivity|]. split; [reflexivity|discriminate].
  - right. exists e, w. split; [reflexivity|]. split; [eapply SUB; eassumption|discriminate].
Qed.

Lemma iter_validator_decides : forall rk elt B, dec_cb elt B ->
  dec_cb (iter_validator P rk elt) (fun v => exists l, elems P v = Some l /\ forall e, In e l -> B e).
Proof.
  intros rk elt B H v w. unfold iter_validator. destruct (elems P v) as [l|].
  2:{ right. eexists; exists w. split; [reflexivity|]. split; [reflexivity|]. intros (l & E & _). discriminate. }
  assert (L : forall l dn w, (exists w', fill_rest P rk elt v dn l w = (Ok v, w') /\ (forall e, In e l -> B e)) \/
     (exists e w', fill_rest P rk elt v dn l w = (Raise e, w') /\ is_Exception e = true /\ ~ (forall e, In e l -> B e))).
  { clear w. intros l0. induction l0 as [|e r IH]; intros dn w; cbn.
    - left. exists w. split; [reflexivity|]. intros e [].
    - unfold bind. destruct (H e w) as [(y & w' & -> & E & HB)|(x & w' & -> & X & HB)].
      + subst y. destruct (py_isP P e e) as [_|N]; [|contradiction].
        destruct (IH (dn ++ [e]) w') as [(w2 & -> & HF)|(x & w2 & -> & X & HF)].
        * left. exists w2. split; [reflexivity|]. intros z [<-|I]; auto.
        * right. exists x, w2. split; [reflexivity|]. split; [assumption|]. intros F. apply HF. intros z I. apply F. right; assumption.
      + right. exists x, w'. split; [reflexivity|]. split; [assumption|]. intros F. apply HB. apply F. left; reflexivity. }
  destruct (L l [] w) as [(w' & -> & HF)|(e & w' & -> & X & HF)].
  - left. exists v, w'. split; [reflexivity|]. split; [reflexivity|]. eauto.
  - right. exists e, w'. split; [reflexivity|]. split; [assumption|]. intros (l' & [= <-] & F). auto.
Qed.

Lemma len_validator_decides : forall n, dec_cb (len_validator P n) (fun v => exists l, elems P v = Some l /\ List.length l = n).
Proof.
  intros n v w. unfold len_validator. destruct (elems P v) as [l|].
  - destruct (Nat.eqb_spec (List.length l) n) as [E|N].
    + left. exists v, w. split; [reflexivity|]. split; [reflexivity|]. eauto.
    + right. eexists; exists w. split; [reflexivity|]. split; [reflexivity|]. intros (l' & [= <-] & E). auto.
  - right. eexists; exists w. split; [reflexivity|]. split; [reflexivity|]. intros (l & E & _). discriminate.
Qed.

Fixpoint prefix_ok (Bs : list (obj -> Prop)) (l : list obj) : Prop :=
  match Bs, l with
  | B :: Br, e :: r => B e /\ prefix_ok Br r
  | _, _ => True
  end.

Lemma tuple_validator_decides : forall (fs : list callback) Bs, Forall2 (fun c B => dec_cb c B) fs Bs ->
  dec_cb (tuple_validator P fs) (fun v => exists l, elems P v = Some l /\ prefix_ok Bs l).
Proof.
  intros fs Bs H v w. unfold tuple_validator. destruct (elems P v) as [l|].
  2:{ right. eexists; exists w. split; [reflexivity|]. split; [reflexivity|]. intros (l & E & _). discriminate. }
  assert (L : forall l dn w, (exists w', tuple_rest P fs v dn l w = (Ok v, w') /\ prefix_ok Bs l) \/
     (exists e w', tuple_rest P fs v dn l w = (Raise e, w') /\ is_Exception e = true /\ ~ prefix_ok Bs l)).
  { clear w. induction H as [|c B fs Bs HC _ IH]; intros l0 dn w.
    - left. exists w. destruct l0; split; reflexivity.
    - destruct l0 as [|e r]; [left; exists w; split; [reflexivity|exact I]|]. cbn. unfold bind.
      destruct (HC e w) as [(y & w' & -> & E & HB)|(x & w' & -> & X & HB)].
      + subst y. destruct (py_isP P e e) as [_|N]; [|contradiction].
        destruct (IH r (dn ++ [e]) w') as [(w2 & -> & HF)|(x & w2 & -> & X & HF)].
        * left. exists w2. auto.
        * right. exists x, w2. split; [reflexivity|]. split; [assumption|]. tauto.
      + right. exists x, w'. split; [reflexivity|]. split; [assumption|]. tauto. }
  destruct (L l [] w) as [(w' & -> & HF)|(e & w' & -> & X & HF)].
  - left. exists v, w'. split; [reflexivity|]. split; [reflexivity|]. eauto.
  - right. exists e, w'. split; [reflexivity|]. split; [assumption|]. intros (l' & [= <-] & F). auto.
Qed.

Lemma map_validator_decides : forall rk fk fv Bk Bv, dec_cb fk Bk -> dec_cb fv Bv ->
  dec_cb (map_validator P rk fk fv) (fun v => exists l, items P v = Some l /\ forall k e, In (k, e) l -> Bk k /\ Bv e).
Proof.
  intros rk fk fv Bk Bv HK HV v w. unfold map_validator. destruct (items P v) as [l|].
  2:{ right. eexists; exists w. split; [reflexivity|]. split; [reflexivity|]. intros (l & E & _). discriminate. }
  assert (L : forall l w, (exists w', mapM (fill_pair fk fv) l w = (Ok l, w') /\ (forall k e, In (k, e) l -> Bk k /\ Bv e)) \/
     (exists e w', mapM (fill_pair fk fv) l w = (Raise e, w') /\ is_Exception e = true /\ ~ (forall k e, In (k, e) l -> Bk k /\ Bv e))).
  { clear w. intros l0. induction l0 as [|[k e] r IH]; intros w; cbn.
    - left. exists w. split; [reflexivity|]. intros k e [].
    - unfold fill_pair at 1 3, bind; cbn [fst snd]. destruct (HK k w) as [(y & w1 & -> & E & HB)|(x & w1 & -> & X & HB)].
      2:{ right. exists x, w1. split; [reflexivity|]. split; [assumption|]. intros F. apply HB. apply (F k e). left; reflexivity. }
      subst y. destruct (HV e w1) as [(y & w2 & -> & E & HB2)|(x & w2 & -> & X & HB2)].
      2:{ right. exists x, w2. split; [reflexivity|]. split; [assumption|]. intros F. apply HB2. apply (F k e). left; reflexivity. }
      subst y. cbn [ret]. destruct (IH w2) as [(w3 & -> & HF)|(x & w3 & -> & X & HF)].
      + left. exists w3. split; [reflexivity|]. intros k' e' [[= <- <-]|I]; auto.
      + right. exists x, w3. split; [reflexivity|]. split; [assumption|]. intros F. apply HF. intros k' e' I. apply F. right; assumption. }
  unfold bind. destruct (L l w) as [(w' & -> & HF)|(e & w' & -> & X & HF)].
  - assert (S : all_same P l l = true).
    { clear. induction l as [|[a b] r IH]; [reflexivity|]. cbn. unfold pair_is. cbn.
      destruct (py_isP P a a) as [_|N]; [|contradiction]. destruct (py_isP P b b) as [_|N]; [|contradiction]. exact IH. }
    rewrite S. left. exists v, w'. split; [reflexivity|]. split; [reflexivity|]. eauto.
  - right. exists e, w'. split; [reflexivity|]. split; [assumption|]. intros (l' & [= <-] & F). auto.
Qed.

(** ** Unions *)

Lemma union_loop_decides : forall (fs : list (obj -> M W (obj * tpk))) Bs x, Forall2 (fun f B => dec_fill f B) fs Bs ->
  forall best key w, Forall (eq x) best -> (best <> [] <-> key <> None) -> (fs <> [] \/ best <> []) ->
  (exists bs k w', union_loop fs x best key w = (Ok (bs, Some k), w') /\ bs <> [] /\ Forall (eq x) bs /\ (best <> [] \/ any_of (fun B => B x) Bs)) \/
  (exists e w', union_loop fs x best key w = (Raise e, w') /\ is_Exception e = true /\ best = [] /\ ~ any_of (fun B => B x) Bs).
Proof.
  intros fs Bs x H. induction H as [|f B fs Bs HF HR IH]; intros best key w HB HK HN.
  - destruct HN as [N|N]; [contradiction|]. destruct key as [k|]; [|destruct (proj1 HK N eq_refl)].
    left. exists best, k, w. cbn. auto.
  - cbn. destruct (HF x w) as [([v k] & w1 & -> & E & HX)|(e & w1 & -> & X & HX)]; cbn in *.
    + subst v. left.
      assert (G : forall best key, Forall (eq x) best -> best <> [] -> key <> None ->
        exists bs k w', union_loop fs x best key w1 = (Ok (bs, Some k), w') /\ bs <> [] /\ Forall (eq x) bs /\ (best <> [] \/ B x \/ any_of (fun B => B x) Bs)).
      { intros b0 k0 F0 N0 K0. destruct (IH b0 k0 w1) as [(bs & k1 & w2 & H1 & H2 & H3 & _)|(e & w2 & _ & _ & H3 & _)]; auto.
        - tauto.
        - exists bs, k1, w2. tauto.
        - contradiction. }
      destruct (rank_lt k key) eqn:RL.
      * destruct (G [x] (Some k)) as (bs & k1 & w2 & H1 & H2 & H3 & _); [auto|discriminate|discriminate|]. exists bs, k1, w2. auto 8.
      * destruct (rank_eq k key) eqn:RE.
        -- assert (key <> None) as K0 by (destruct key; [discriminate|discriminate RE]).
           destruct (G (best ++ [x]) key) as (bs & k1 & w2 & H1 & H2 & H3 & _); [apply Forall_app; auto|destruct best; discriminate|assumption|].
           exists bs, k1, w2. auto 8.
        -- destruct key as [k0|]; [|cbn in *].
           ++ destruct (G best (Some k0)) as (bs & k1 & w2 & H1 & H2 & H3 & _); [assumption|apply HK; discriminate|discriminate|]. exists bs, k1, w2. auto 8.
           ++ discriminate RL.
    + rewrite X. destruct best as [|b0 br].
      * destruct fs as [|f' fr].
        -- right. exists e, w1. inversion HR; subst. cbn. tauto.
        -- destruct (IH [] key w1) as [(bs & k1 & w2 & H1 & H2 & H3 & H4)|(e' & w2 & H1 & H2 & H3 & H4)]; auto.
           ++ left; discriminate.
           ++ left. exists bs, k1, w2. tauto.
           ++ right. exists e', w2. tauto.
      * destruct (IH (b0 :: br) key w1) as [(bs & k1 & w2 & H1 & H2 & H3 & H4)|(e' & w2 & H1 & H2 & H3 & H4)]; auto.
        -- right; discriminate.
        -- left. exists bs, k1, w2. split; [destruct fs; assumption|]. split; [assumption|]. split; [assumption|]. left; discriminate.
        -- discriminate.
Qed.

(** ** All annotations *)

Lemma free_callbacks : forall k ts, Forall free ts -> tok_coercers P k ts = Ok [] /\ tok_validators P k ts = Ok [].
Proof. induction 1 as [|t r F _ [I1 I2]]; [split; reflexivity|]. destruct t; cbn in F; try contradiction; cbn; auto. Qed.

Lemma bound_free : forall dflt pre k own a1 a2, Forall free pre -> Forall free own ->
  aapplys P (mk_afiller k own) pre = Ok a1 -> abind P dflt a1 = Ok a2 ->
  a2 = AF k own (eff_style dflt (pre ++ own)) [] (lit_validators P k (eff_style dflt (pre ++ own))) true.
Proof.
  intros dflt pre k own a1 a2 F1 F2 H1 H2. destruct (bound_afiller P _ _ _ _ _ _ H1 H2) as (cs & vs & C & V & -> & _).
  destruct (free_callbacks k (pre ++ own)) as [C' V']; [apply Forall_app; auto|]. rewrite C' in C. rewrite V' in V.
  injection C as <-. injection V as <-. reflexivity.
Qed.

Lemma hollow_part : forall dflt h f f', gaf P [] h = Ok f -> bind_with P dflt [] f = Ok f' ->
  is_hollow f' = hollow_hint dflt no_sub_tokens [] [] h.
Proof.
  intros dflt h f f' HG HB. rewrite (hollow_correct P h [] f [] f dflt [] f' HG eq_refl HB). cbn. apply hollow_hint_ext. intros i. reflexivity.
Qed.

Definition right (f' : filler) (B : obj -> Prop) : Prop :=
  dec_fill (fill P f') B /\ (is_hollow f' = true -> forall v, B v).

Lemma leaf_right : forall dflt pre own k f' B, Forall free pre -> Forall free own ->
  (match k with KLiteral _ _ => False | _ => True end) ->
  bind_with P dflt pre (FAnn (mk_afiller k own)) = Ok f' -> (forall v, kind_in (eff_style dflt (pre ++ own)) k v <-> B v) -> right f' B.
Proof.
  intros dflt pre own k f' B F1 F2 NL HB E. cbn in HB. oinv HB. oinv HB. injection HB as <-.
  rewrite (bound_free dflt pre k own a a0 F1 F2 HBa HBa0). split.
  - cbn [fill]. eapply decides_ext; [|replace (lit_validators P k (eff_style dflt (pre ++ own))) with (@nil callback) by (destruct k; try reflexivity; contradiction);
      apply (afill_decides k own _ [] [] NL (Forall2_nil _))]. intros v. rewrite <- E. split; [intros [? _]; assumption|auto].
  - cbn. unfold ahollow. cbn. intros H v. apply E. destruct (eff_style dflt (pre ++ own)); try discriminate. destruct k; cbn; auto.
Qed.

Lemma class_kind_in : forall s t v, kind_in s (class_kind P t) v <-> instance_of P s t v.
Proof.
  intros s t v. unfold class_kind, instance_of.
  destruct (ty_eqP P t (t_bool P)) as [->|]; [reflexivity|].
  destruct (ty_eqb P t (t_none P)); [reflexivity|]. destruct (ty_eqb P t (t_ellipsis P)); reflexivity.
Qed.
Lemma class_kind_free : forall t, match class_kind P t with KLiteral _ _ => False | _ => True end.
Proof. intros t. unfold class_kind. destruct (ty_eqb P t (t_bool P)); [exact I|]. destruct (ty_eqb P t (t_none P)); [exact I|]. destruct (ty_eqb P t (t_ellipsis P)); exact I. Qed.

(** a container: its class is checked and then its validators run *)
Lemma wrapper_fill : forall t own s vs Bs B, Forall2 (fun c B => dec_cb c B) vs Bs -> s <> SHollow ->
  (forall v, class_ok P s t v /\ Forall (fun B => B v) Bs <-> B v) ->
  dec_fill (afill P (AF (KSimple t) own s [] vs true)) B.
Proof. intros t own s vs Bs B HV HS E. eapply decides_ext; [exact E|]. apply afill_decides; [exact I|assumption]. Qed.

Lemma hollow_fill : forall t own (B : obj -> Prop), (forall v, B v) -> dec_fill (afill P (AF (KSimple t) own SHollow [] [] true)) B.
Proof. intros t own B H v w. left. eexists; eexists. split; [reflexivity|]. split; [reflexivity|apply H]. Qed.

Lemma checked_iff : forall s (p q : Prop), s <> SHollow -> (s = SDefault \/ (p <-> q)) -> (checked s p <-> (s <> SDefault /\ q)).
Proof. intros s p q H E. destruct s; cbn; intuition congruence. Qed.

Lemma style_hollow : forall s, style_eqb s SHollow = true -> s = SHollow.
Proof. intros [] H; try discriminate; reflexivity. Qed.
Lemma style_not_hollow : forall s, style_eqb s SHollow = false -> s <> SHollow.
Proof. intros [] H; try discriminate; congruence. Qed.

Lemma class_checked : forall s t v (p q : Prop), s <> SHollow -> (class_ok P s t v -> (p <-> q)) ->
  (class_ok P s t v /\ p <-> class_ok P s t v /\ checked s q).
Proof. intros s t v p q H E. destruct s; cbn in *; try contradiction; intuition. Qed.

Lemma pairwise_Forall2 : forall {A B} (p : A -> B -> Prop) l m, pairwise p l m <-> Forall2 p l m.
Proof.
  intros A B p. induction l as [|a r IH]; intros [|b s]; cbn; split; intros H; auto; try contradiction; try inversion H; subst.
  - constructor; [tauto|]. apply IH; tauto.
  - split; [assumption|]. apply IH; assumption.
Qed.

Lemma mapO_comp : forall {A B C} (f : A -> outcome B) (g : B -> outcome C) (R : A -> C -> Prop) l m n,
  mapO f l = Ok m -> mapO g m = Ok n -> Forall (fun a => forall b c, f a = Ok b -> g b = Ok c -> R a c) l -> Forall2 R l n.
Proof.
  intros A B C f g R l m n H1 H2 HF. apply mapO_Forall2 in H1. apply mapO_Forall2 in H2. revert n H2.
  induction H1 as [|a b l m E _ IH]; intros n H2; inversion H2; subst; [constructor|]. inversion HF; subst. constructor; eauto.
Qed.

Theorem gaf_right : forall h dflt pre own f f',
  Forall free (hint_tokens h) -> Forall free pre -> Forall free own ->
  gaf P own h = Ok f -> bind_with P dflt pre f = Ok f' -> right f' (belongs P dflt pre own h).
Proof.
  induction h as [t0| | | |h IH|hs IH|lid vals|base|hs IH|h IH|rk t0 h IH|rk t0 hk hv IHk IHv|t0 hs IH|t0| |h toks IH]
    using hint_ind'; intros dflt pre own f f' HT HP HO HG HB; cbn in HG; cbn [hint_tokens] in HT;
    try (injection HG as <-; eapply leaf_right; [exact HP|exact HO| |exact HB|]; [first [exact I|apply class_kind_free]|intros v; first [reflexivity|apply class_kind_in]]).
  - (* HNewType *)
    assert (D : (exists h' ts, h = HAnn h' ts) \/ (forall A (x y : A), match h with HAnn _ _ => x | _ => y end = y)).
    { destruct h; auto. left; eauto. }
    destruct D as [(h' & ts & ->)|D].
    + unfold dumb in HG. destruct own; [|discriminate]. injection HG as <-. cbn in HB. destruct pre; [|discriminate].
      destruct (style_eqb dflt SHollow); [|discriminate]. injection HB as <-. split; [|intros; exact I].
      intros v w. left. eexists; eexists. split; [reflexivity|]. split; [reflexivity|exact I].
    + assert (HG' : gaf P own h = Ok f) by (rewrite <- HG; symmetry; apply (D (outcome filler))).
      destruct (IH dflt pre own f f' HT HP HO HG' HB) as [R1 R2].
      assert (E : forall v, belongs P dflt pre own h v <-> belongs P dflt pre own (HNewType h) v).
      { intros v. cbn. rewrite (D Prop). reflexivity. }
      split; [eapply decides_ext; [exact E|exact R1]|]. intros H v. apply E. apply R2. assumption.
  - (* HUnion *)
    oinv HG. injection HG as <-. cbn in HB. oinv HB. injection HB as <-.
    assert (FP : Forall free (own ++ pre)) by (apply Forall_app; auto).
    assert (R : Forall2 (fun h' s' => right s' (belongs P dflt (own ++ pre) [] h')) hs a0).
    { eapply mapO_comp; [exact HGa|exact HBa|]. apply Forall_forall. intros h' I' s s' G B'.
      eapply Forall_forall in IH; [|exact I']. eapply IH; [|exact FP|constructor|exact G|exact B'].
      apply Forall_forall. intros t Ht. eapply Forall_forall in HT; [exact HT|]. apply in_flat_map. eauto. }
    destruct hs as [|h0 hr].
    { inversion R; subst. split; [|intros; exact I]. intros v w. left. eexists; eexists. split; [reflexivity|]. split; [reflexivity|exact I]. }
    assert (ANY : forall v, any_of (fun B => B v) (map (fun h' => belongs P dflt (own ++ pre) [] h') (h0 :: hr)) <-> belongs P dflt pre own (HUnion (h0 :: hr)) v).
    { intros v. assert (G : forall l, any_of (fun B => B v) (map (fun h' => belongs P dflt (own ++ pre) [] h') l) <-> any_of (fun h' => belongs P dflt (own ++ pre) [] h' v) l).
      { induction l as [|h1 l IHl]; cbn; [|rewrite IHl]; reflexivity. }
      apply (G (h0 :: hr)). }
    assert (F2 : Forall2 (fun f B => dec_fill f B) (map (fill P) a0) (map (fun h' => belongs P dflt (own ++ pre) [] h') (h0 :: hr))).
    { clear - R. induction R as [|h' s' hs ss [HR _] _ IHR]; constructor; auto. }
    split.
    + intros v w. cbn [fill]. destruct (forallb is_hollow a0) eqn:AH.
      * left. eexists; eexists. split; [reflexivity|]. split; [reflexivity|]. inversion R as [|? ? ? ? [_ R2] ? ]; subst.
        cbn in AH. apply andb_true_iff in AH as [AH _]. apply ANY. left. apply R2. assumption.
      * destruct (union_loop_decides _ _ v F2 [] None w) as [(bs & k & w' & H1 & H2 & H3 & H4)|(e & w' & H1 & H2 & _ & H4)].
        -- constructor.
        -- split; congruence.
        -- left. inversion R; discriminate.
        -- left. unfold bind. rewrite H1. cbn [fst snd]. unfold union_finish. destruct bs as [|b br]; [contradiction|].
           pose proof (Forall_inv H3) as EB. pose proof (Forall_inv_tail H3) as H3'. cbn in EB. subst b.
           assert (E : existsb (fun y => negb (py_is P y v)) br = false).
           { clear - H3'. induction H3' as [|y l <- _ IHl]; [reflexivity|]. cbn. destruct (py_isP P v v) as [_|N]; [exact IHl|contradiction]. }
           rewrite E. eexists; eexists. split; [reflexivity|]. split; [reflexivity|]. apply ANY. destruct H4 as [N|H4]; [contradiction|exact H4].
        -- right. unfold bind. rewrite H1. exists e, w'. split; [reflexivity|]. split; [assumption|]. rewrite <- ANY. assumption.
    + cbn [is_hollow]. intros AH v. inversion R as [|? ? ? ? [_ R2] ? ]; subst.
      cbn in AH. apply andb_true_iff in AH as [AH _]. apply ANY. left. apply R2. assumption.
  - (* HLiteral *)
    injection HG as <-. cbn in HB. oinv HB. oinv HB. injection HB as <-. rewrite (bound_free dflt pre _ own a a0 HP HO HBa HBa0). split.
    + cbn [fill]. apply literal_decides.
    + cbn. unfold ahollow. cbn. intros H v. apply style_hollow in H. rewrite H. exact I.
  - (* HType *)
    injection HG as <-. cbn in HB. oinv HB. oinv HB. injection HB as <-. rewrite (bound_free dflt pre _ own a a0 HP HO HBa HBa0).
    unfold ahollow. cbn [a_style lit_validators belongs]. destruct (style_eqb (eff_style dflt (pre ++ own)) SHollow) eqn:SH.
    + apply style_hollow in SH. rewrite SH. split; [cbn [fill]; apply hollow_fill; intros v; cbn; auto|]. intros _ v. cbn. auto.
    + apply style_not_hollow in SH. split.
      * cbn [fill]. eapply wrapper_fill; [constructor; [apply (type_validator_decides base)|constructor]|assumption|].
        intros v. apply class_checked; [assumption|]. intros _. split; [intros F; inversion F; assumption|intros E; constructor; [assumption|constructor]].
      * cbn. unfold ahollow. cbn. intros H. apply style_hollow in H. contradiction.
  - (* HTupleN *)
    oinv HG. injection HG as <-. cbn in HB. oinv HB. oinv HB. oinv HB.
    rewrite (bound_free dflt pre _ own a0 a1 HP HO HBa HBa0) in HB. unfold ahollow in HB. cbn [a_style lit_validators] in HB.
    set (s := eff_style dflt (pre ++ own)) in *.
    assert (R : Forall2 (fun h' s' => right s' (belongs P dflt [] [] h') /\ is_hollow s' = hollow_hint dflt no_sub_tokens [] [] h') hs a2).
    { eapply mapO_comp; [exact HGa|exact HBa1|]. apply Forall_forall. intros h' I' s0 s' G B'.
      eapply Forall_forall in IH; [|exact I']. split; [|eapply hollow_part; eassumption]. eapply IH; [|constructor|constructor|exact G|exact B'].
      apply Forall_forall. intros t Ht. eapply Forall_forall in HT; [exact HT|]. apply in_flat_map. eauto. }
    assert (LEN : List.length a = List.length hs) by (apply mapO_length in HGa; assumption).
    cbn [belongs]. fold s. 
    assert (PW : forall l, List.length l = List.length hs -> (prefix_ok (map (fun h' => belongs P dflt [] [] h') hs) l <-> pairwise (fun h' e => belongs P dflt [] [] h' e) hs l)).
    { clear. induction hs as [|h hs IHh]; intros [|e l] E; cbn in *; try discriminate; [tauto|]. rewrite IHh by congruence. reflexivity. }
    assert (PL : forall l, pairwise (fun h' e => belongs P dflt [] [] h' e) hs l -> List.length l = List.length hs).
    { intros l H. apply pairwise_Forall2 in H. clear - H. induction H; cbn; congruence. }
    destruct (style_eqb s SHollow) eqn:SH.
    + pose proof (style_hollow _ SH) as SE. cbn in HB. rewrite SH in HB. cbn in HB. destruct (forallb is_hollow a2); [|discriminate]. injection HB as <-.
      split; [cbn [fill]; rewrite SE; apply hollow_fill; intros v; cbn; auto|]. intros _ v. rewrite SE. cbn. auto.
    + pose proof (style_not_hollow _ SH) as SE. cbn in HB. rewrite SH in HB. destruct (forallb is_hollow a2) eqn:AH; injection HB as <-.
      * split.
        -- cbn [fill]. eapply wrapper_fill; [constructor; [apply (len_validator_decides (List.length a))|constructor]|assumption|].
           intros v. apply class_checked; [assumption|]. intros _. rewrite LEN. split.
           ++ intros F. pose proof (Forall_inv F) as (l & E & L). exists l. split; [assumption|]. apply PW; [assumption|].
              clear - R AH. assert (ALL : Forall (fun h' => forall e, belongs P dflt [] [] h' e) hs).
              { induction R as [|h' s' hs ss [[_ R2] _] _ IHR]; [constructor|]. cbn in AH. apply andb_true_iff in AH as [A1 A2]. constructor; [apply R2; assumption|auto]. }
              revert l. clear - ALL. induction ALL as [|h' hs H _ IHa]; intros [|e l]; cbn; auto.
           ++ intros (l & E & PWl). constructor; [|constructor]. exists l. split; [assumption|]. apply PL. assumption.
        -- cbn. unfold ahollow. cbn. intros H. apply style_hollow in H. contradiction.
      * split.
        -- cbn [fill]. eapply wrapper_fill; [constructor; [apply (len_validator_decides (List.length a))|constructor; [|constructor]]|assumption|].
           { apply tuple_validator_decides with (Bs := map (fun h' => belongs P dflt [] [] h') hs).
             clear - R. induction R as [|h' s' hs ss [[HR _] _] _ IHR]; constructor; [apply call_decides; assumption|assumption]. }
           intros v. apply class_checked; [assumption|]. intros _. rewrite LEN. split.
           ++ intros F. pose proof (Forall_inv F) as (l & E & L). pose proof (Forall_inv (Forall_inv_tail F)) as (l' & E' & L'). rewrite E in E'. injection E' as <-.
              exists l. split; [assumption|]. apply PW; assumption.
           ++ intros (l & E & PWl). constructor; [exists l; split; [assumption|apply PL; assumption]|]. constructor; [|constructor]. exists l. split; [assumption|]. apply PW; [apply PL; assumption|assumption].
        -- cbn. unfold ahollow. cbn. intros H. apply style_hollow in H. contradiction.
  - (* HTupleV *)
    oinv HG. injection HG as <-. cbn in HB. oinv HB. oinv HB. oinv HB.
    rewrite (bound_free dflt pre _ own a0 a1 HP HO HBa HBa0) in HB. unfold ahollow in HB. cbn [a_style lit_validators] in HB.
    set (s := eff_style dflt (pre ++ own)) in *.
    destruct (IH dflt [] [] a a2 HT (Forall_nil _) (Forall_nil _) HGa HBa1) as [R1 R2].
    pose proof (hollow_part dflt h a a2 HGa HBa1) as HH. cbn [belongs]. fold s.
    destruct (is_hollow a2) eqn:IH2.
    + injection HB as <-. split.
      * cbn [fill]. destruct (style_eqb s SHollow) eqn:SH.
        -- apply style_hollow in SH. rewrite SH. apply hollow_fill. intros v. cbn. auto.
        -- apply style_not_hollow in SH. eapply wrapper_fill; [constructor|assumption|]. intros v. apply class_checked; [assumption|].
           intros _. split; [intros _; left; symmetry; exact HH|intros _; constructor].
      * cbn. unfold ahollow. cbn. intros H v. apply style_hollow in H. rewrite H. cbn. auto.
    + destruct (style_eqb s SHollow) eqn:SH; [discriminate|]. injection HB as <-. apply style_not_hollow in SH. split.
      * cbn [fill]. eapply wrapper_fill; [constructor; [apply iter_validator_decides; apply call_decides; exact R1|constructor]|assumption|].
        intros v. apply class_checked; [assumption|]. intros _. split.
        -- intros F. right. exact (Forall_inv F).
        -- intros [N|E]; [unfold not_looked_at in N; congruence|]. constructor; [assumption|constructor].
      * cbn. unfold ahollow. cbn. intros H. apply style_hollow in H. contradiction.
  - (* HIter *)
    oinv HG. injection HG as <-. cbn in HB. oinv HB. oinv HB. oinv HB.
    rewrite (bound_free dflt pre _ own a0 a1 HP HO HBa HBa0) in HB. unfold ahollow in HB. cbn [a_style lit_validators] in HB.
    set (s := eff_style dflt (pre ++ own)) in *.
    destruct (IH dflt [] [] a a2 HT (Forall_nil _) (Forall_nil _) HGa HBa1) as [R1 R2].
    pose proof (hollow_part dflt h a a2 HGa HBa1) as HH. cbn [belongs]. fold s.
    destruct (is_hollow a2) eqn:IH2.
    + injection HB as <-. split.
      * cbn [fill]. destruct (style_eqb s SHollow) eqn:SH.
        -- apply style_hollow in SH. rewrite SH. apply hollow_fill. intros v. cbn. auto.
        -- apply style_not_hollow in SH. eapply wrapper_fill; [constructor|assumption|]. intros v. apply class_checked; [assumption|].
           intros _. split; [intros _; left; symmetry; exact HH|intros _; constructor].
      * cbn. unfold ahollow. cbn. intros H v. apply style_hollow in H. rewrite H. cbn. auto.
    + destruct (style_eqb s SHollow) eqn:SH; [discriminate|]. injection HB as <-. apply style_not_hollow in SH. split.
      * cbn [fill]. eapply wrapper_fill; [constructor; [apply iter_validator_decides; apply call_decides; exact R1|constructor]|assumption|].
        intros v. apply class_checked; [assumption|]. intros _. split.
        -- intros F. right. exact (Forall_inv F).
        -- intros [N|E]; [unfold not_looked_at in N; congruence|]. constructor; [assumption|constructor].
      * cbn. unfold ahollow. cbn. intros H. apply style_hollow in H. contradiction.
  - (* HMap *)
    oinv HG. oinv HG. injection HG as <-. cbn in HB. oinv HB. oinv HB. oinv HB. oinv HB. apply Forall_app in HT as [T1 T2].
    rewrite (bound_free dflt pre _ own a1 a2 HP HO HBa HBa0) in HB. unfold ahollow in HB. cbn [a_style lit_validators] in HB.
    set (s := eff_style dflt (pre ++ own)) in *.
    destruct (IHk dflt [] [] a a3 T1 (Forall_nil _) (Forall_nil _) HGa HBa1) as [R1 R2].
    destruct (IHv dflt [] [] a0 a4 T2 (Forall_nil _) (Forall_nil _) HGa0 HBa2) as [R3 R4].
    pose proof (hollow_part dflt hk a a3 HGa HBa1) as HH. pose proof (hollow_part dflt hv a0 a4 HGa0 HBa2) as HH2. cbn [belongs]. fold s.
    destruct (is_hollow a3 && is_hollow a4) eqn:IH2.
    + injection HB as <-. apply andb_true_iff in IH2 as [E1 E2]. split.
      * cbn [fill]. destruct (style_eqb s SHollow) eqn:SH.
        -- apply style_hollow in SH. rewrite SH. apply hollow_fill. intros v. cbn. auto.
        -- apply style_not_hollow in SH. eapply wrapper_fill; [constructor|assumption|]. intros v. apply class_checked; [assumption|].
           intros _. split; [intros _; left; unfold not_looked_at; split; congruence|intros _; constructor].
      * cbn. unfold ahollow. cbn. intros H v. apply style_hollow in H. rewrite H. cbn. auto.
    + destruct (style_eqb s SHollow) eqn:SH; [discriminate|]. injection HB as <-. apply style_not_hollow in SH. split.
      * cbn [fill]. eapply wrapper_fill; [constructor; [apply map_validator_decides; apply call_decides; [exact R1|exact R3]|constructor]|assumption|].
        intros v. apply class_checked; [assumption|]. intros _. split.
        -- intros F. right. exact (Forall_inv F).
        -- intros [[N1 N2]|E]; [|constructor; [assumption|constructor]]. unfold not_looked_at in *. rewrite HH, HH2, N1, N2 in IH2. discriminate.
      * cbn. unfold ahollow. cbn. intros H. apply style_hollow in H. contradiction.
  - (* HGenN *)
    oinv HG. injection HG as <-. cbn in HB. oinv HB. oinv HB. oinv HB. injection HB as <-.
    rewrite (bound_free dflt pre _ own a0 a1 HP HO HBa HBa0). cbn [lit_validators belongs]. split.
    + cbn [fill]. eapply decides_ext; [|apply (afill_decides (KSimple t0) own (eff_style dflt (pre ++ own)) [] [] I (Forall2_nil _))].
      intros v. cbn. split; [intros [? _]; assumption|auto].
    + cbn. unfold ahollow. cbn. intros H v. apply style_hollow in H. rewrite H. exact I.
  - (* HOther *)
    unfold dumb in HG. destruct own; [|discriminate]. injection HG as <-. cbn in HB. destruct pre; [|discriminate].
    destruct (style_eqb dflt SHollow); [|discriminate]. injection HB as <-. split; [|intros; exact I].
    intros v w. left. eexists; eexists. split; [reflexivity|]. split; [reflexivity|exact I].
  - (* HAnn *)
    apply Forall_app in HT as [T1 T2]. cbn [belongs]. eapply IH; [exact T1|exact HP| |exact HG|exact HB]. apply Forall_app. auto.
Qed.

Theorem make_filler_exact : forall dflt h f, make_filler P dflt h [] = Ok f -> Forall free (hint_tokens h) ->
  dec_cb (call P f) (belongs P dflt [] [] h).
Proof.
  intros dflt h f HM HT. unfold make_filler, get_filler, bind_filler in HM. oinv HM. cbn in HM. apply call_decides.
  eapply gaf_right; [exact HT|constructor|constructor|exact HMa|exact HM].
Qed.

End Exact.
