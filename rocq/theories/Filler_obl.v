(** Filler_obl.v -- filling with callbacks whose results do not depend on the state of the
    program gives results that do not depend on it either, unless a Literal is coerced. *)
From Verif Require Import Base Py Filler Spec_Filler Spec_State Filler_proofs Filler_sound Filler_inv.

Section Obl.
Context {obj ty W : Type} (P : Py obj ty W).
Notation token := (@token obj ty W).
Notation hint := (@hint obj ty W).
Notation filler := (@filler obj ty W).
Notation afiller := (@afiller obj ty W).
Notation callback := (@callback obj W).
Notation akind := (@akind obj ty).
Notation origin := (@origin ty).

Notation obl := state_blind.
Notation token_obl := (@token_blind obj ty W).
Hypothesis RT : runtime_blind P.

Lemma obl_ret : forall {A} (a : A), obl (@ret W A a).
Proof. intros A a w1 w2. reflexivity. Qed.

Lemma obl_raise : forall {A} e, is_Exception e = true -> obl (@raise W A e).
Proof. intros A e H w1 w2. reflexivity. Qed.

Lemma obl_bind : forall {A B} (m : M W A) (k : A -> M W B), obl m -> (forall a, obl (k a)) -> obl (bind m k).
Proof.
  intros A B m k HM HK w1 w2. unfold bind. specialize (HM w1 w2).
  destruct (m w1) as [[a|e] u1], (m w2) as [[b|e'] u2]; cbn in HM; try contradiction.
  - subst. apply HK.
  - exact HM.
Qed.

Lemma obl_mapM : forall {A B} (f : A -> M W B) l, (forall a, obl (f a)) -> obl (mapM f l).
Proof.
  intros A B f l H; induction l as [|a r IH]; cbn; [apply obl_ret|].
  apply obl_bind; [apply H|]. intro. apply obl_bind; [assumption|]. intro. apply obl_ret.
Qed.


(** ** Filling *)

Definition is_lit (k : akind) : bool := match k with KLiteral _ _ => true | _ => false end.

Lemma type_check_pure : forall k x w1 w2, is_lit k = false -> type_check P k x w1 = type_check P k x w2.
Proof. intros [] x w1 w2 H; try reflexivity. discriminate. Qed.

Definition callbacks_obl (a : afiller) : Prop :=
  (forall c, In c (a_coercers a) -> forall x, obl (c x)) /\
  (forall c, In c (a_validators a) -> forall x, obl (c x)).

(** a bound filler *)
Definition afiller_obl (a : afiller) : Prop :=
  match a_kind a with
  | KLiteral lid vals =>
      a_coercers a = [] /\ a_validators a = if ahollow a then [] else [literal_validator P lid vals]
  | _ => callbacks_obl a
  end.

Lemma run_coercers_obl : forall k s cs x, is_lit k = false -> (forall c, In c cs -> forall x, obl (c x)) -> obl (run_coercers P k s cs x).
Proof.
  intros k s; induction cs as [|c r IH]; intros x L H; cbn; [apply obl_ret|].
  intros w1 w2. pose proof (H c (or_introl eq_refl) x w1 w2) as HC.
  assert (IH' : forall y, obl (run_coercers P k s r y)) by (intro; apply IH; [assumption|]; intros; apply H; right; assumption).
  destruct (c x w1) as [[y|e] u1], (c x w2) as [[y'|e'] u2]; cbn in HC; try contradiction.
  - subst y'. rewrite (type_check_pure k y u1 u2 L).
    destruct (coerced_ok s (type_check P k y u2)); [reflexivity|].
    destruct r as [|c' r']; [reflexivity|]. apply IH'.
  - rewrite HC. destruct (is_Exception e') eqn:EX; cbn [andb]; [|cbn; congruence].
    destruct r as [|c' r']; cbn [negb]; [cbn; congruence|]. apply IH'.
Qed.

Lemma run_validators_obl : forall vs x, (forall c, In c vs -> forall x, obl (c x)) -> obl (@run_validators obj W vs x).
Proof.
  induction vs as [|v r IH]; intros x HV; cbn; [apply obl_ret|].
  apply obl_bind; [apply HV; left; reflexivity|]. intro. apply IH. intros; apply HV; right; assumption.
Qed.

Lemma afill_obl : forall a x, afiller_obl a -> obl (afill P a x).
Proof.
  intros a x HA. destruct (is_lit (a_kind a)) eqn:L.
  - unfold afiller_obl in HA. destruct (a_kind a) as [| | | | |lid vals] eqn:K; try discriminate. destruct HA as [HC HV].
    intros w1 w2. unfold afill, type_phase, bind. rewrite HC, HV, K. unfold ahollow.
    assert (LM : lit_mem P vals x = true -> forall w, ty_mem P (type_of P x) (lit_types P lid vals w) = true).
    { intros H w. unfold lit_mem in H. apply existsb_exists in H as (l & I & E). apply andb_true_iff in E as [E _].
      unfold ty_mem. apply existsb_exists. exists (type_of P l). split; [|exact E].
      unfold lit_types. apply in_or_app. left. apply in_map. exact I. }
    assert (LV : forall w, exists w', literal_validator P lid vals x w = ((if lit_mem P vals x then Ok x else Raise (match hash_error P x with Some e => e | None => mkexc ValueError "" end)), w')).
    { intros w. unfold literal_validator. destruct (lit_mem P vals x); eexists; reflexivity. }
    assert (XE : is_Exception (match hash_error P x with Some e => e | None => mkexc ValueError "" end) = true).
    { destruct (hash_error P x) as [e|] eqn:E; [exact (proj2 (proj2 (proj2 RT)) x e E)|reflexivity]. }
    destruct (lit_mem P vals x) eqn:M.
    + destruct (a_style a); cbn; try reflexivity; rewrite !(LM eq_refl); cbn;
        destruct (LV w1) as [u1 E1], (LV w2) as [u2 E2]; unfold bind; rewrite E1, E2; reflexivity.
    + destruct (a_style a); try reflexivity;
        destruct (type_check P (KLiteral lid vals) x w1), (type_check P (KLiteral lid vals) x w2); cbn;
        unfold bind; destruct (LV w1) as [u1 E1], (LV w2) as [u2 E2]; try rewrite E1; try rewrite E2; cbn; rewrite ?XE; reflexivity.
  - assert (CB : callbacks_obl a) by (unfold afiller_obl in HA; destruct (a_kind a); try exact HA; discriminate).
    destruct CB as [HC HV]. unfold afill. apply obl_bind.
    + assert (CO : obl (match a_coercers a with
          | [] => raise (mkexc TypeError "failed type checking")
          | _ => let* y := run_coercers P (a_kind a) (a_style a) (a_coercers a) x in ret (y, PCoerce) end)).
      { destruct (a_coercers a) eqn:EC; [apply obl_raise; reflexivity|].
        apply obl_bind; [apply run_coercers_obl; assumption|]. intro. apply obl_ret. }
      intros w1 w2. unfold type_phase. rewrite (type_check_pure (a_kind a) x w1 w2 L).
      destruct (a_style a); try reflexivity;
        destruct (type_check P (a_kind a) x w2); cbn [style_eqb]; try reflexivity; apply CO.
    + intros p. apply obl_bind; [|intro; apply obl_ret]. apply run_validators_obl. exact HV.
Qed.

Fixpoint filler_obl (f : filler) : Prop :=
  match f with
  | FAnn a | FType _ a _ | FTupleN _ a _ | FTupleV _ a _ | FIter _ _ a _ | FMap _ _ a _ _ | FGenN _ a _ => afiller_obl a
  | FDumb _ => True
  | FUnion _ _ subs _ => (fix all l := match l with [] => True | s :: r => filler_obl s /\ all r end) subs
  end.

Lemma union_loop_obl : forall (fs : list (obj -> M W (obj * tpk))) x best key,
  (forall f, In f fs -> forall x, obl (f x)) -> obl (union_loop fs x best key).
Proof.
  induction fs as [|f r IH]; intros x best key H; cbn; [apply obl_ret|].
  intros w1 w2. pose proof (H f (or_introl eq_refl) x w1 w2) as HF.
  assert (IH' : forall best key, obl (union_loop r x best key)) by (intros; apply IH; intros; apply H; right; assumption).
  destruct (f x w1) as [[[v k]|e] u1], (f x w2) as [[[v' k']|e'] u2]; cbn in HF; try contradiction.
  - injection HF as <- <-. destruct (rank_lt k key); [apply IH'|].
    destruct (rank_eq k key); apply IH'.
  - rewrite HF. destruct (is_Exception e') eqn:EX; [|cbn; congruence].
    destruct best as [|b0 br]; [destruct r as [|f' r']|]; [cbn; congruence|apply IH'|apply IH'].
Qed.

Lemma fill_obl : forall f x, filler_obl f -> obl (fill P f x).
Proof.
  induction f using filler_ind'; intros x HS; try (apply afill_obl; exact HS).
  - apply obl_ret.
  - cbn in HS. apply all_Forall in HS. cbn.
    destruct (forallb is_hollow subs); [apply obl_ret|].
    apply obl_bind.
    + apply union_loop_obl. intros g HG y. apply in_map_iff in HG. destruct HG as (s & <- & HI).
      eapply Forall_forall in H; [|eassumption]. apply H. eapply Forall_forall in HS; eassumption.
    + intros [bs key]. cbn. unfold union_finish. destruct bs as [|b0 br]; [apply obl_raise; reflexivity|].
      destruct key; [|apply obl_raise; reflexivity].
      destruct (existsb _ br); [apply obl_raise; reflexivity|apply obl_ret].
Qed.

Lemma call_obl : forall f x, filler_obl f -> obl (call P f x).
Proof.
  intros f x HS w1 w2. rewrite !call_eq. pose proof (fill_obl f x HS w1 w2) as HF.
  destruct (fill P f x w1) as [[[y p]|e] u1], (fill P f x w2) as [[[y' p']|e'] u2]; cbn in *; try contradiction; congruence.
Qed.

(** ** Callbacks that binding adds *)

Lemma type_validator_obl : forall b x, obl (type_validator P b x).
Proof. intros b x w1 w2. unfold type_validator. destruct (issubclass P x b) as [[|]|e]; reflexivity. Qed.

Lemma iter_validator_obl : forall rk elt x, (forall x, obl (elt x)) -> obl (iter_validator P rk elt x).
Proof.
  intros rk elt x H. unfold iter_validator. destruct (elems P x) as [l|]; [|apply obl_raise; reflexivity].
  generalize (@nil obj). induction l as [|e r IH]; intros dn; cbn; [apply obl_ret|].
  apply obl_bind; [apply H|]. intro e'. destruct (py_is P e' e); [apply IH|].
  apply obl_bind; [apply obl_mapM; assumption|]. intro. apply RT.
Qed.

Lemma len_validator_obl : forall n x, obl (len_validator P n x).
Proof.
  intros n x. unfold len_validator. destruct (elems P x) as [l|]; [|apply obl_raise; reflexivity].
  destruct (Nat.eqb _ _); [apply obl_ret|apply obl_raise; reflexivity].
Qed.

Lemma tuple_validator_obl : forall (fs : list callback) x, (forall f, In f fs -> forall x, obl (f x)) -> obl (tuple_validator P fs x).
Proof.
  intros fs x. unfold tuple_validator. destruct (elems P x) as [l|]; [|intros; apply obl_raise; reflexivity].
  generalize (@nil obj). revert l. induction fs as [|f fr IH]; intros [|e r] dn H; cbn; try apply obl_ret.
  apply obl_bind; [apply H; left; reflexivity|]. intro e'.
  assert (H' : forall f, In f fr -> forall x, obl (f x)) by (intros; apply H; right; assumption).
  destruct (py_is P e' e); [apply IH; assumption|].
  apply obl_bind; [|intro; apply RT].
  clear IH H. revert r. induction fr as [|g gr IHz]; intros [|e2 r2]; cbn; try apply obl_ret.
  apply obl_bind; [apply H'; left; reflexivity|]. intro.
  apply obl_bind; [apply IHz; intros; apply H'; right; assumption|]. intro; apply obl_ret.
Qed.

Lemma map_validator_obl : forall rk fk fv x, (forall x, obl (fk x)) -> (forall x, obl (fv x)) -> obl (map_validator P rk fk fv x).
Proof.
  intros rk fk fv x HK HV. unfold map_validator. destruct (items P x) as [l|]; [|apply obl_raise; reflexivity].
  apply obl_bind.
  - apply obl_mapM. intros [k v]. unfold fill_pair. apply obl_bind; [apply HK|]. intro.
    apply obl_bind; [apply HV|]. intro. apply obl_ret.
  - intro l'. destruct (all_same P l l'); [apply obl_ret|apply RT].
Qed.

(** ** Tokens *)

Lemma run_seq_obl : forall (fs : list callback) x, (forall f, In f fs -> forall x, obl (f x)) -> obl (run_seq fs x).
Proof.
  induction fs as [|f r IH]; intros x H; cbn; [apply obl_ret|].
  apply obl_bind; [apply H; left; reflexivity|]. intro. apply IH. intros; apply H; right; assumption.
Qed.

Fixpoint ctoken_size (c : @ctoken obj ty W) : nat :=
  match c with
  | CCompose cs => S ((fix sum l := match l with [] => 0 | c :: r => ctoken_size c + sum r end) cs)
  | _ => 1
  end.

Lemma get_coercer_obl_aux : forall n k c f,
  ctoken_size c <= n -> ctoken_blind c -> get_coercer P k c = Ok f -> forall x, obl (f x).
Proof.
  induction n as [|n IH]; intros k c f HS HT HG x; [destruct c; cbn in HS; lia|].
  destruct c as [g| |cs|]; cbn in HG.
  - eapply HT; eassumption.
  - destruct k; try discriminate. injection HG as <-. unfold bool_from_int.
    destruct RT as (_ & _ & EI & _). apply obl_bind; [apply EI|]. intros [|]; [apply obl_ret|].
    apply obl_bind; [apply EI|]. intros [|]; [apply obl_ret|apply obl_raise; reflexivity].
  - oinv HG. injection HG as <-. apply run_seq_obl. intros g HI y.
    apply in_rev in HI. apply mapO_Forall2 in HGa.
    assert (HS' : (fix sum l := match l with [] => 0 | c :: r => ctoken_size c + sum r end) cs <= n) by (cbn in HS; lia).
    clear HS. cbn in HT. revert HT HS'.
    induction HGa as [|c0 f0 cs fs G0 HF IHF]; intros HT HS'; [destruct HI|].
    destruct HT as [T0 TR]. destruct HI as [->|HI].
    + eapply IH; [|exact T0|exact G0]. lia.
    + apply IHF; [assumption|assumption|lia].
  - discriminate.
Qed.

Lemma get_coercer_obl : forall k c f, ctoken_blind c -> get_coercer P k c = Ok f -> forall x, obl (f x).
Proof. intros. eapply get_coercer_obl_aux; [apply Nat.le_refl|eassumption|eassumption]. Qed.

Lemma tok_coercers_obl : forall k ts cs, Forall token_obl ts -> tok_coercers P k ts = Ok cs ->
  forall c, In c cs -> forall x, obl (c x).
Proof.
  induction ts as [|t r IH]; intros cs HT HC c HI x; cbn in HC.
  - injection HC as <-. destruct HI.
  - inversion HT; subst. destruct t; try (eapply IH; eassumption).
    oinv HC. oinv HC. injection HC as <-. destruct HI as [->|HI].
    + eapply get_coercer_obl; eassumption.
    + eapply IH; eassumption.
Qed.

Lemma tok_validators_obl : forall k ts cs, Forall token_obl ts -> tok_validators P k ts = Ok cs ->
  forall c, In c cs -> forall x, obl (c x).
Proof.
  induction ts as [|t r IH]; intros cs HT HC c HI x; cbn in HC.
  - injection HC as <-. destruct HI.
  - inversion HT; subst. destruct t; try (eapply IH; eassumption).
    oinv HC. oinv HC. injection HC as <-. destruct HI as [->|HI].
    + destruct v as [g|]; cbn in HCa; [|discriminate]. eapply H1; eassumption.
    + eapply IH; eassumption.
Qed.


(** ** Binding *)

Notation free := (@callback_free obj ty W).

Lemma free_callbacks : forall k ts, Forall free ts -> tok_coercers P k ts = Ok [] /\ tok_validators P k ts = Ok [].
Proof. induction 1 as [|t r F _ [I1 I2]]; [split; reflexivity|]. destruct t; cbn in F; try contradiction; cbn; auto. Qed.

(** a filler that is not bound yet *)
Definition afiller_pre (a : afiller) : Prop :=
  if is_lit (a_kind a) then a_coercers a = [] /\ a_validators a = [] /\ Forall free (a_args a)
  else callbacks_obl a /\ Forall token_obl (a_args a).
Definition toks_ok (k : akind) (ts : list token) : Prop := Forall token_obl ts /\ (is_lit k = true -> Forall free ts).

Lemma aapplys_pre : forall ts a a1, toks_ok (a_kind a) ts -> afiller_pre a -> aapplys P a ts = Ok a1 ->
  afiller_pre a1 /\ a_kind a1 = a_kind a /\ a_args a1 = a_args a.
Proof.
  intros ts a a1 [HT HL] HP H. apply aapplys_inv in H. destruct H as (cs & vs & C & V & -> & _). cbn.
  split; [|auto]. unfold afiller_pre in *. cbn. destruct (is_lit (a_kind a)).
  - destruct (free_callbacks (a_kind a) ts (HL eq_refl)) as [C' V']. rewrite C' in C. rewrite V' in V. injection C as <-. injection V as <-.
    rewrite !app_nil_r. exact HP.
  - destruct HP as [[HC HV] HA]. split; [|assumption]. split; cbn; intros c HI; apply in_app_or in HI; destruct HI as [HI|HI]; auto.
    + eapply tok_coercers_obl; [exact HT|exact C|exact HI].
    + eapply tok_validators_obl; [exact HT|exact V|exact HI].
Qed.

Lemma abind_obl : forall dflt a a1, afiller_pre a -> abind P dflt a = Ok a1 -> afiller_obl a1 /\ a_kind a1 = a_kind a.
Proof.
  intros dflt a a1 HP H. unfold abind in H. oinv H.
  assert (TK : toks_ok (a_kind a) (a_args a)).
  { unfold afiller_pre in HP. split; destruct (is_lit (a_kind a)).
    - destruct HP as (_ & _ & F). eapply Forall_impl; [|exact F]. intros t T. destruct t; cbn in *; try contradiction; exact I.
    - apply HP.
    - intros _. apply HP.
    - discriminate. }
  apply aapplys_pre in Ha; [|exact TK|assumption]. destruct Ha as (HP2 & EK & _).
  destruct (a_bound a0); [discriminate|].
  match type of H with context [if ?b then Raise (mkexc ValueError _) else _] => destruct b; [discriminate|] end.
  cbn in H. rewrite <- EK. unfold afiller_pre in HP2. destruct (a_kind a0) eqn:K0; cbn in HP2;
    try (match type of H with context [if ?b then Raise _ else _] => destruct b; [discriminate|] end; injection H as <-;
         unfold afiller_obl; cbn; split; [apply HP2|reflexivity]).
  destruct HP2 as (HC & HV & _). injection H as <-.
  destruct (ahollow _) eqn:AH; unfold afiller_obl; cbn.
  - split; [|reflexivity]. split; [exact HC|]. rewrite HV. unfold ahollow in *. cbn in *. rewrite AH. reflexivity.
  - split; [|reflexivity]. split; [exact HC|]. rewrite HV. unfold ahollow in *. cbn in *. rewrite AH. reflexivity.
Qed.

Lemma add_validator_obl : forall a v, is_lit (a_kind a) = false -> afiller_obl a -> (forall x, obl (v x)) -> afiller_obl (add_validator a v).
Proof.
  intros a v L HA H. unfold afiller_obl in *. cbn [a_kind add_validator]. destruct (a_kind a); try discriminate;
    destruct HA as [HC HV]; (split; cbn; [assumption|]; intros c HI; apply in_app_or in HI; destruct HI as [HI|[->|[]]]; auto).
Qed.

Lemma apre_bind : forall dflt pre a b1 b2,
  afiller_pre a -> toks_ok (a_kind a) pre -> aapplys P a pre = Ok b1 -> abind P dflt b1 = Ok b2 ->
  afiller_obl b2 /\ a_kind b2 = a_kind a.
Proof.
  intros dflt pre a b1 b2 HS HP H1 H2. apply aapplys_pre in H1; [|assumption|assumption].
  destruct H1 as (HS1 & EK & _). apply abind_obl in H2; [|assumption]. rewrite <- EK. exact H2.
Qed.

(** a Literal that tokens applied to the filler reach *)
Fixpoint top_lit (f : filler) : bool :=
  match f with
  | FAnn a => is_lit (a_kind a)
  | FUnion _ _ subs _ => existsb top_lit subs
  | _ => false
  end.

Definition wrapped_pre (a : afiller) : Prop := afiller_pre a /\ is_lit (a_kind a) = false.

Fixpoint filler_pre (f : filler) : Prop :=
  match f with
  | FAnn a => afiller_pre a
  | FType _ a _ => wrapped_pre a
  | FDumb _ => True
  | FUnion ar ap subs _ => Forall token_obl (ar ++ ap) /\ (existsb top_lit subs = true -> Forall free (ar ++ ap)) /\
      (fix all l := match l with [] => True | s :: r => filler_pre s /\ all r end) subs
  | FTupleN _ a subs | FGenN _ a subs => wrapped_pre a /\
      (fix all l := match l with [] => True | s :: r => filler_pre s /\ all r end) subs
  | FTupleV _ a s | FIter _ _ a s => wrapped_pre a /\ filler_pre s
  | FMap _ _ a fk fv => wrapped_pre a /\ filler_pre fk /\ filler_pre fv
  end.

Definition pre_ok (f : filler) (pre : list token) : Prop := Forall token_obl pre /\ (top_lit f = true -> Forall free pre).
Lemma pre_nil : forall f, pre_ok f [].
Proof. intros f. split; [constructor|]. intros; constructor. Qed.
Lemma wrapped_bind : forall dflt pre a b1 b2,
  wrapped_pre a -> Forall token_obl pre -> aapplys P a pre = Ok b1 -> abind P dflt b1 = Ok b2 -> afiller_obl b2 /\ is_lit (a_kind b2) = false.
Proof.
  intros dflt pre a b1 b2 [HA HL] HP H1 H2. edestruct apre_bind as [A B]; [exact HA| |exact H1|exact H2|].
  - split; [assumption|]. rewrite HL. discriminate.
  - split; [assumption|]. rewrite B. assumption.
Qed.

Lemma bind_with_obl : forall dflt f pre f',
  pre_ok f pre -> filler_pre f -> bind_with P dflt pre f = Ok f' -> filler_obl f'.
Proof.
  intros dflt. induction f using filler_ind'; intros pre f' HP HF HB; cbn in HB.
  - oinv HB. oinv HB. injection HB as <-. cbn. eapply apre_bind; eassumption.
  - destruct pre; [|discriminate]. destruct b; [discriminate|]. destruct (style_eqb dflt SHollow); [|discriminate].
    injection HB as <-. exact I.
  - destruct b; [discriminate|]. oinv HB. injection HB as <-. cbn. apply all_Forall.
    destruct HF as (H1 & H2 & H3). apply all_Forall in H3. destruct HP as [P1 P2]. cbn in P2.
    assert (Forall (fun s => filler_pre s /\ pre_ok s (ar ++ ap ++ pre)) subs) as H4.
    { apply Forall_forall. intros s Is. split; [eapply Forall_forall in H3; eassumption|].
      rewrite app_assoc. split; [apply Forall_app; split; assumption|]. intros T.
      assert (existsb top_lit subs = true) as E by (apply existsb_exists; exists s; auto).
      apply Forall_app. split; auto. }
    eapply mapO_Forall; [exact HBa|exact H4|]. eapply Forall_impl; [|exact H].
    intros s IHs [Ps Qs] s' Bs. eapply IHs; eassumption.
  - oinv HB. destruct b; [discriminate|]. oinv HB. injection HB as <-. cbn.
    edestruct wrapped_bind as [S1 S2]; [exact HF|exact (proj1 HP)|eassumption|eassumption|].
    destruct (ahollow a1); [assumption|]. apply add_validator_obl; [assumption|assumption|]. intro; apply type_validator_obl.
  - oinv HB. destruct b; [discriminate|]. oinv HB. oinv HB. destruct HF as [HFa HFs]. apply all_Forall in HFs.
    edestruct wrapped_bind as [S1 L1]; [exact HFa|exact (proj1 HP)|eassumption|eassumption|].
    assert (S2 : Forall filler_obl a2).
    { eapply mapO_Forall; [exact HBa1|exact HFs|]. eapply Forall_impl; [|exact H].
      intros s IHs Ps s' Bs. eapply IHs; [apply pre_nil|eassumption|eassumption]. }
    assert (S3 : afiller_obl (if ahollow a1 then a1 else add_validator a1 (len_validator P (List.length subs))) /\
                 is_lit (a_kind (if ahollow a1 then a1 else add_validator a1 (len_validator P (List.length subs)))) = false).
    { destruct (ahollow a1); [split; assumption|]. split; [|exact L1]. apply add_validator_obl; [assumption|assumption|]. intro; apply len_validator_obl. }
    destruct S3 as [S3 L3].
    destruct (forallb is_hollow a2); [injection HB as <-; exact S3|].
    match type of HB with context [if ?b then Raise _ else _] => destruct b; [discriminate|] end. injection HB as <-.
    apply add_validator_obl; [assumption|assumption|]. intro x. apply tuple_validator_obl.
    intros g HG y. apply in_map_iff in HG. destruct HG as (s & <- & HI). apply call_obl. eapply Forall_forall in S2; eassumption.
  - oinv HB. destruct b; [discriminate|]. oinv HB. oinv HB. destruct HF as [HFa HFs].
    edestruct wrapped_bind as [S1 L1]; [exact HFa|exact (proj1 HP)|eassumption|eassumption|].
    assert (S2 : filler_obl a2) by (eapply IHf; [apply pre_nil|eassumption|eassumption]).
    destruct (is_hollow a2); [injection HB as <-; exact S1|]. destruct (ahollow a1); [discriminate|]. injection HB as <-.
    apply add_validator_obl; [assumption|assumption|]. intro x. apply iter_validator_obl. intro; apply call_obl; assumption.
  - oinv HB. destruct b; [discriminate|]. oinv HB. oinv HB. destruct HF as [HFa HFs].
    edestruct wrapped_bind as [S1 L1]; [exact HFa|exact (proj1 HP)|eassumption|eassumption|].
    assert (S2 : filler_obl a2) by (eapply IHf; [apply pre_nil|eassumption|eassumption]).
    destruct (is_hollow a2); [injection HB as <-; exact S1|]. destruct (ahollow a1); [discriminate|]. injection HB as <-.
    apply add_validator_obl; [assumption|assumption|]. intro x. apply iter_validator_obl. intro; apply call_obl; assumption.
  - oinv HB. destruct b; [discriminate|]. oinv HB. oinv HB. oinv HB. destruct HF as (HFa & HFk & HFv).
    edestruct wrapped_bind as [S1 L1]; [exact HFa|exact (proj1 HP)|eassumption|eassumption|].
    assert (S2 : filler_obl a2) by (eapply IHf1; [apply pre_nil|eassumption|eassumption]).
    assert (S3 : filler_obl a3) by (eapply IHf2; [apply pre_nil|eassumption|eassumption]).
    destruct (is_hollow a2 && is_hollow a3); [injection HB as <-; exact S1|]. destruct (ahollow a1); [discriminate|]. injection HB as <-.
    apply add_validator_obl; [assumption|assumption|]. intro x. apply map_validator_obl; intro; apply call_obl; assumption.
  - oinv HB. destruct b; [discriminate|]. oinv HB. oinv HB. injection HB as <-. destruct HF as [HFa HFs].
    edestruct wrapped_bind as [S1 L1]; [exact HFa|exact (proj1 HP)|eassumption|eassumption|]. exact S1.
Qed.

(** ** From annotations to fillers *)

Lemma mk_wrapped_pre : forall t args, Forall token_obl args -> wrapped_pre (mk_afiller (KSimple t) args).
Proof. intros t args H. split; [|reflexivity]. split; [split; intros c []|assumption]. Qed.
Lemma mk_class_pre : forall k args, is_lit k = false -> Forall token_obl args -> afiller_pre (mk_afiller k args).
Proof. intros k args L H. unfold afiller_pre. cbn. rewrite L. split; [split; intros c []|assumption]. Qed.
Lemma class_kind_lit : forall t, is_lit (class_kind P t) = false.
Proof. intros t. unfold class_kind. repeat destruct (ty_eqb _ _ _); reflexivity. Qed.

Lemma plain_weaken : forall h own own', (Forall free own -> Forall free own') -> plain_literals own h -> plain_literals own' h.
Proof.
  induction h using hint_ind'; intros own own' I HP; cbn [plain_literals] in *; auto.
  - eapply IHh; eassumption.
  - apply all_Forall. apply all_Forall in HP. apply Forall_forall. intros h Ih.
    eapply Forall_forall in H; [|exact Ih]. eapply Forall_forall in HP; [|exact Ih]. eapply H; eassumption.
  - eapply IHh; [|exact HP]. intros F. apply Forall_app in F as [F1 F2]. apply Forall_app. auto.
Qed.

Lemma gaf_top : forall h own args f, plain_literals own h -> gaf P args h = Ok f -> top_lit f = true -> Forall free own.
Proof.
  induction h using hint_ind'; intros own args f HP HG HL; cbn in HG; cbn [plain_literals] in HP;
    try (injection HG as <-; cbn in HL; try rewrite class_kind_lit in HL; discriminate).
  - assert (D : (exists h' ts, h = HAnn h' ts) \/ (forall A (x y : A), match h with HAnn _ _ => x | _ => y end = y)).
    { destruct h; auto. left; eauto. }
    destruct D as [(h' & ts & ->)|D].
    + unfold dumb in HG. destruct args; [|discriminate]. injection HG as <-. discriminate.
    + eapply IHh; [exact HP| |exact HL]. rewrite <- HG. symmetry. apply (D (outcome filler)).
  - oinv HG. injection HG as <-. cbn in HL. apply existsb_exists in HL as (s & Is & Ts).
    apply all_Forall in HP. apply mapO_Forall2 in HGa. clear - H HP HGa Is Ts.
    induction HGa as [|h s' hs ss G _ IH]; [destruct Is|]. inversion H; subst. inversion HP; subst.
    destruct Is as [->|Is]; [|auto]. eapply H2; eassumption.
  - exact HP.
  - oinv HG. injection HG as <-. discriminate.
  - oinv HG. injection HG as <-. discriminate.
  - oinv HG. injection HG as <-. discriminate.
  - oinv HG. oinv HG. injection HG as <-. discriminate.
  - oinv HG. injection HG as <-. discriminate.
  - unfold dumb in HG. destruct args; [|discriminate]. injection HG as <-. discriminate.
  - eapply IHh in HP; [|exact HG|exact HL]. apply Forall_app in HP. apply HP.
Qed.

Lemma gaf_pre : forall h args f, Forall token_obl (hint_tokens h) -> Forall token_obl args -> plain_literals args h ->
  gaf P args h = Ok f -> filler_pre f.
Proof.
  assert (SUBS : forall hs fs, Forall (fun h => forall args f, Forall token_obl (hint_tokens h) -> Forall token_obl args -> plain_literals args h ->
      gaf P args h = Ok f -> filler_pre f) hs ->
      Forall token_obl (flat_map hint_tokens hs) -> Forall (plain_literals []) hs -> mapO (gaf P []) hs = Ok fs -> Forall filler_pre fs).
  { intros hs fs IH HT HP HG. apply mapO_Forall2 in HG. clear - IH HT HP HG.
    induction HG as [|h f hs fs G _ IHF]; [constructor|]. inversion IH; subst. inversion HP; subst. cbn in HT. apply Forall_app in HT as [T1 T2].
    constructor; [|apply IHF; assumption]. eapply H1; [exact T1|constructor|assumption|exact G]. }
  induction h using hint_ind'; intros args f HT HA HP HG; pose proof HG as HG0; cbn in HG; cbn in HT; pose proof HP as HP0; cbn [plain_literals] in HP;
    try (injection HG as <-; first [apply mk_wrapped_pre; assumption|apply mk_class_pre; [first [reflexivity|apply class_kind_lit]|assumption]]).
  - assert (D : (exists h' ts, h = HAnn h' ts) \/ (forall A (x y : A), match h with HAnn _ _ => x | _ => y end = y)).
    { destruct h; auto. left; eauto. }
    destruct D as [(h' & ts & ->)|D].
    + unfold dumb in HG. destruct args; [|discriminate]. injection HG as <-. exact I.
    + eapply IHh; [eassumption|eassumption|exact HP|].
      rewrite <- HG. symmetry. apply (D (outcome filler)).
  - oinv HG. injection HG as <-. apply all_Forall in HP.
    assert (Forall (fun h => plain_literals [] h) hs) as HP1 by (eapply Forall_impl; [|exact HP]; intros h0; apply plain_weaken; constructor).
    cbn. rewrite app_nil_r. split; [assumption|]. split; [|apply all_Forall; eapply SUBS; eassumption].
    intros E. exact (gaf_top _ _ _ _ HP0 HG0 E).
  - injection HG as <-. cbn. unfold afiller_pre. cbn. auto.
  - oinv HG. injection HG as <-. cbn. split; [apply mk_wrapped_pre; assumption|]. apply all_Forall. apply all_Forall in HP. eapply SUBS; eassumption.
  - oinv HG. injection HG as <-. cbn. split; [apply mk_wrapped_pre; assumption|]. eapply IHh; [eassumption|constructor|eassumption|eassumption].
  - oinv HG. injection HG as <-. cbn. split; [apply mk_wrapped_pre; assumption|]. eapply IHh; [eassumption|constructor|eassumption|eassumption].
  - oinv HG. oinv HG. injection HG as <-. apply Forall_app in HT as [T1 T2]. destruct HP as [P1 P2]. cbn.
    split; [apply mk_wrapped_pre; assumption|].
    split; [eapply IHh1; [exact T1|constructor|exact P1|eassumption]|eapply IHh2; [exact T2|constructor|exact P2|eassumption]].
  - oinv HG. injection HG as <-. cbn. split; [apply mk_wrapped_pre; assumption|]. apply all_Forall. apply all_Forall in HP. eapply SUBS; eassumption.
  - unfold dumb in HG. destruct args; [|discriminate]. injection HG as <-. exact I.
  - apply Forall_app in HT as [T1 T2]. eapply IHh; [exact T1| |exact HP|exact HG]. apply Forall_app. auto.
Qed.

(** ** Tokens added later *)

(** a Literal anywhere *)
Fixpoint any_lit (f : filler) : bool :=
  match f with
  | FAnn a => is_lit (a_kind a)
  | FType _ _ _ | FDumb _ => false
  | FUnion _ _ subs _ | FTupleN _ _ subs | FGenN _ _ subs => existsb any_lit subs
  | FTupleV _ _ s | FIter _ _ _ s => any_lit s
  | FMap _ _ _ fk fv => any_lit fk || any_lit fv
  end.

Lemma no_lit_gaf : forall h args f, no_literals h -> gaf P args h = Ok f -> any_lit f = false.
Proof.
  assert (SUBS : forall hs fs, Forall (fun h => forall args f, no_literals h -> gaf P args h = Ok f -> any_lit f = false) hs ->
      Forall no_literals hs -> mapO (gaf P []) hs = Ok fs -> existsb any_lit fs = false).
  { intros hs fs IH HP HG. apply mapO_Forall2 in HG. clear - IH HP HG.
    induction HG as [|h f hs fs G _ IHF]; [reflexivity|]. inversion IH; subst. inversion HP; subst.
    cbn. rewrite (H1 _ _ H3 G). apply IHF; assumption. }
  induction h using hint_ind'; intros args f HP HG; cbn in HG; cbn [no_literals] in HP;
    try (injection HG as <-; cbn; try rewrite class_kind_lit; reflexivity).
  - assert (D : (exists h' ts, h = HAnn h' ts) \/ (forall A (x y : A), match h with HAnn _ _ => x | _ => y end = y)).
    { destruct h; auto. left; eauto. }
    destruct D as [(h' & ts & ->)|D].
    + unfold dumb in HG. destruct args; [|discriminate]. injection HG as <-. reflexivity.
    + eapply IHh; [exact HP|]. rewrite <- HG. symmetry. apply (D (outcome filler)).
  - oinv HG. injection HG as <-. apply all_Forall in HP. cbn. eapply SUBS; eassumption.
  - destruct HP.
  - oinv HG. injection HG as <-. apply all_Forall in HP. cbn. eapply SUBS; eassumption.
  - oinv HG. injection HG as <-. cbn. eapply IHh; eassumption.
  - oinv HG. injection HG as <-. cbn. eapply IHh; eassumption.
  - oinv HG. oinv HG. injection HG as <-. destruct HP as [P1 P2]. cbn. rewrite (IHh1 _ _ P1 HGa), (IHh2 _ _ P2 HGa0). reflexivity.
  - oinv HG. injection HG as <-. apply all_Forall in HP. cbn. eapply SUBS; eassumption.
  - unfold dumb in HG. destruct args; [|discriminate]. injection HG as <-. reflexivity.
  - eapply IHh; eassumption.
Qed.

Lemma aapply_ok : forall a t a1, token_obl t -> (is_lit (a_kind a) = true -> free t) -> afiller_pre a -> aapply P a t = Ok a1 ->
  afiller_pre a1 /\ a_kind a1 = a_kind a.
Proof.
  intros a t a1 HT HL HP H. destruct (aapplys_pre [t] a a1) as (A & B & _); auto.
  - split; [constructor; auto|]. intros E. constructor; auto.
  - cbn. rewrite H. reflexivity.
Qed.

Lemma wrapped_apply : forall a t a1, token_obl t -> wrapped_pre a -> aapply P a t = Ok a1 -> wrapped_pre a1.
Proof.
  intros a t a1 HT [HP HL] H. destruct (aapply_ok a t a1) as [A B]; auto.
  - rewrite HL. discriminate.
  - split; [assumption|]. rewrite B. assumption.
Qed.

Lemma apply_ok : forall f t f1, token_obl t -> (top_lit f = true -> free t) -> filler_pre f -> apply P f t = Ok f1 ->
  filler_pre f1 /\ top_lit f1 = top_lit f /\ any_lit f1 = any_lit f.
Proof.
  intros f t f1 HT HL HF H. destruct f; cbn in H.
  - oinv H. injection H as <-. destruct (aapply_ok a t a0 HT HL HF Ha) as [A B]. cbn. rewrite B. auto.
  - discriminate.
  - destruct bound; [discriminate|]. injection H as <-. cbn in *. destruct HF as (H1 & H2 & H3).
    split; [|auto]. rewrite app_assoc. split; [apply Forall_app; auto|]. split; [|assumption].
    intros E. apply Forall_app. auto.
  - oinv H. injection H as <-. split; [|auto]. cbn. eapply wrapped_apply; eassumption.
  - oinv H. injection H as <-. split; [|auto]. cbn in *. destruct HF. split; [eapply wrapped_apply; eassumption|assumption].
  - oinv H. injection H as <-. split; [|auto]. cbn in *. destruct HF. split; [eapply wrapped_apply; eassumption|assumption].
  - oinv H. injection H as <-. split; [|auto]. cbn in *. destruct HF. split; [eapply wrapped_apply; eassumption|assumption].
  - oinv H. injection H as <-. split; [|auto]. cbn in *. destruct HF. split; [eapply wrapped_apply; eassumption|assumption].
  - oinv H. injection H as <-. split; [|auto]. cbn in *. destruct HF. split; [eapply wrapped_apply; eassumption|assumption].
Qed.

Lemma any_top : forall f, any_lit f = false -> top_lit f = false.
Proof.
  induction f using filler_ind'; cbn; auto. intros E.
  induction subs as [|s r IH]; [reflexivity|]. cbn in *. inversion H; subst. apply orb_false_iff in E as [E1 E2].
  rewrite H2 by assumption. apply IH; assumption.
Qed.

Lemma update_nth_ok : forall n t l l1, token_obl t -> (free t \/ existsb any_lit l = false) -> Forall filler_pre l ->
  update_nth n (fun sf => apply P sf t) l = Ok l1 ->
  Forall filler_pre l1 /\ existsb top_lit l1 = existsb top_lit l /\ existsb any_lit l1 = existsb any_lit l.
Proof.
  induction n as [|n IH]; intros t [|f r] l1 HT HL HF H; cbn in H; try discriminate; oinv H; injection H as <-; inversion HF; subst.
  - destruct (apply_ok f t a HT) as (A & B & C); auto.
    { intros T. destruct HL as [|E]; [assumption|]. cbn in E. apply orb_false_iff in E as [E _]. apply any_top in E. congruence. }
    split; [constructor; assumption|]. cbn. rewrite B, C. auto.
  - destruct (IH t r a HT) as (A & B & C); auto.
    { destruct HL as [|E]; [auto|]. cbn in E. apply orb_false_iff in E as [_ E]. auto. }
    split; [constructor; assumption|]. cbn. rewrite B, C. auto.
Qed.

Lemma apply_at_ok : forall k f t f1, token_obl t -> (free t \/ any_lit f = false) -> filler_pre f -> apply_at P k t f = Ok f1 ->
  filler_pre f1 /\ any_lit f1 = any_lit f.
Proof.
  assert (TOP : forall t f, (free t \/ any_lit f = false) -> top_lit f = true -> free t).
  { intros t f [|E] T; [assumption|]. apply any_top in E. congruence. }
  intros [n|] f t f1 HT HL HF H; [|destruct (apply_ok f t f1 HT (TOP t f HL) HF H) as (A & _ & B); auto]. destruct f; cbn in H; try discriminate.
  - oinv H. injection H as <-. cbn in *. destruct HF as (H1 & H2 & H3). apply all_Forall in H3.
    destruct (update_nth_ok _ _ _ _ HT HL H3 Ha) as (A & B & C). split; [|assumption]. split; [assumption|]. rewrite B. split; [assumption|].
    apply all_Forall. assumption.
  - oinv H. injection H as <-. cbn in *. destruct HF as (H1 & H3). apply all_Forall in H3.
    destruct (update_nth_ok _ _ _ _ HT HL H3 Ha) as (A & B & C). split; [|assumption]. split; [assumption|].
    apply all_Forall. assumption.
  - destruct n; [|discriminate]. oinv H. injection H as <-. cbn in *. destruct HF as [H1 H2].
    destruct (apply_ok f t a0 HT (TOP t f HL) H2 Ha) as (A & _ & B). auto.
  - destruct n; [|discriminate]. oinv H. injection H as <-. cbn in *. destruct HF as [H1 H2].
    destruct (apply_ok f t a0 HT (TOP t f HL) H2 Ha) as (A & _ & B). auto.
  - assert (K : free t \/ any_lit f2 = false) by (destruct HL as [|E]; [auto|]; cbn in E; apply orb_false_iff in E as [E _]; auto).
    assert (K2 : free t \/ any_lit f3 = false) by (destruct HL as [|E]; [auto|]; cbn in E; apply orb_false_iff in E as [_ E]; auto).
    destruct n as [|[|n]]; [| |discriminate]; oinv H; injection H as <-; cbn in *; destruct HF as (H1 & H2 & H3).
    + destruct (apply_ok _ t _ HT (TOP t _ K) H2 Ha) as (A & _ & B). rewrite B. auto.
    + destruct (apply_ok _ t _ HT (TOP t _ K2) H3 Ha) as (A & _ & B). rewrite B. auto.
Qed.

Lemma apply_ops_ok : forall ops f f1, Forall token_obl (map snd ops) -> (Forall free (map snd ops) \/ any_lit f = false) ->
  filler_pre f -> apply_ops P f ops = Ok f1 -> filler_pre f1.
Proof.
  induction ops as [|[k t] r IH]; intros f f1 HT HL HF H; cbn in *.
  - injection H as <-. assumption.
  - inversion HT; subst. oinv H.
    destruct (apply_at_ok k f t a) as [A B]; auto.
    { destruct HL as [L|L]; [inversion L; auto|auto]. }
    eapply IH; [eassumption| |exact A|eassumption]. rewrite B. destruct HL as [L|L]; [inversion L; auto|auto].
Qed.

Theorem make_filler_blind : forall dflt h ops f,
  make_filler P dflt h ops = Ok f -> Forall token_obl (hint_tokens h ++ map snd ops) -> literals_left_alone h ops ->
  forall x, obl (call P f x).
Proof.
  intros dflt h ops f HM HT [HP HO] x. apply Forall_app in HT as [H1 H2].
  unfold make_filler in HM. oinv HM. oinv HM. apply call_obl.
  eapply bind_with_obl; [apply pre_nil| |exact HM].
  eapply apply_ops_ok; [eassumption| |eapply gaf_pre; [exact H1|constructor|exact HP|exact HMa]|eassumption].
  destruct HO as [HO|HO]; [auto|]. right. eapply no_lit_gaf; eassumption.
Qed.

End Obl.
