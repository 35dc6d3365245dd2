(** Filler_inv.v -- a property of effects that every user callback has and that is
    closed under sequencing and under catching exceptions is a property of filling. *)
From Verif Require Import Base Py Filler Spec_Filler Filler_proofs Filler_sound.

Section Inv.
Context {obj ty W : Type} (P : Py obj ty W).
Notation token := (@token obj ty W).
Notation hint := (@hint obj ty W).
Notation filler := (@filler obj ty W).
Notation afiller := (@afiller obj ty W).
Notation callback := (@callback obj W).
Notation akind := (@akind obj ty).
Notation origin := (@origin ty).
Notation op := (option nat * token)%type.

Variable Phi : W -> option exc -> W -> Prop.

Definition exc_of {A} (o : outcome A) : option exc :=
  match o with Ok _ => None | Raise e => Some e end.

(** the effects of [m] are in [Phi] *)
Definition sat {A} (m : M W A) : Prop := forall w, Phi w (exc_of (fst (m w))) (snd (m w)).

(** [Phi] contains doing nothing and raising an Exception, and is closed under
    going on after a computation, returned or caught *)
Definition closed_rel : Prop :=
  (forall w, Phi w None w) /\
  (forall w e, is_Exception e = true -> Phi w (Some e) w) /\
  (forall w w1 o w2, Phi w None w1 -> Phi w1 o w2 -> Phi w o w2) /\
  (forall w e w1 o w2, is_Exception e = true -> Phi w (Some e) w1 -> Phi w1 o w2 -> Phi w o w2).

(** the run time's own operations are in [Phi] *)
Definition runtime_sat : Prop :=
  (forall rk v es, sat (rebuild P rk v es)) /\
  (forall rk v es, sat (rebuild_map P rk v es)) /\
  (forall v z, sat (eq_int P v z)) /\
  (forall v b, sat (lift (issubclass P v b))) /\
  (forall v e, hash_error P v = Some e -> sat (raise (A := unit) e)) /\
  (forall l t w, Phi w None (lit_grow P l t w)).

Fixpoint ctoken_sat (c : @ctoken obj ty W) : Prop :=
  match c with
  | CGlobal g => forall o f, g o = Ok f -> forall x, sat (f x)
  | CCompose cs => (fix all l := match l with [] => True | c :: r => ctoken_sat c /\ all r end) cs
  | _ => True
  end.

Definition token_sat (t : token) : Prop :=
  match t with
  | TCoerce c => ctoken_sat c
  | TValid (VGlobal g) => forall o f, g o = Ok f -> forall x, sat (f x)
  | _ => True
  end.

Section Closed.
Hypothesis CL : closed_rel.
Hypothesis RT : runtime_sat.

Lemma sat_ret : forall {A} (a : A), sat (ret a).
Proof. intros A a w. apply CL. Qed.

Lemma sat_raise : forall {A} e, is_Exception e = true -> sat (@raise W A e).
Proof. intros A e H w. cbn. apply CL. assumption. Qed.

Lemma sat_bind : forall {A B} (m : M W A) (k : A -> M W B), sat m -> (forall a, sat (k a)) -> sat (bind m k).
Proof.
  intros A B m k HM HK w. unfold bind. specialize (HM w). destruct (m w) as [[a|e] w1]; cbn in *.
  - destruct CL as (_ & _ & SEQ & _). eapply SEQ; [eassumption|apply HK].
  - assumption.
Qed.

Lemma sat_mapM : forall {A B} (f : A -> M W B) l, (forall a, sat (f a)) -> sat (mapM f l).
Proof.
  intros A B f l H; induction l as [|a r IH]; cbn; [apply sat_ret|].
  apply sat_bind; [apply H|]. intro. apply sat_bind; [assumption|]. intro. apply sat_ret.
Qed.

(** the callbacks of a filler *)
Definition afiller_sat (a : afiller) : Prop :=
  (forall c, In c (a_coercers a) -> forall x, sat (c x)) /\
  (forall c, In c (a_validators a) -> forall x, sat (c x)).

Lemma run_coercers_sat : forall k s cs x, (forall c, In c cs -> forall x, sat (c x)) -> sat (run_coercers P k s cs x).
Proof.
  intros k s; induction cs as [|c r IH]; intros x H; cbn; [apply sat_ret|].
  intro w. pose proof (H c (or_introl eq_refl) x w) as HC.
  assert (IH' : forall y, sat (run_coercers P k s r y)) by (intro; apply IH; intros; apply H; right; assumption).
  destruct CL as (CR & CX & SEQ & CATCH).
  destruct (c x w) as [[y|e] w1]; cbn in HC.
  - destruct (coerced_ok s (type_check P k y w1)); cbn; [assumption|].
    destruct r as [|c' r'].
    + cbn. eapply SEQ; [eassumption|]. apply CX. reflexivity.
    + eapply SEQ; [eassumption|]. apply IH'.
  - destruct (is_Exception e) eqn:EX; cbn; [|assumption].
    destruct r as [|c' r']; cbn [negb]; [assumption|].
    eapply CATCH; [eassumption|eassumption|]. apply IH'.
Qed.

Lemma afill_sat : forall a x, afiller_sat a -> sat (afill P a x).
Proof.
  intros a x [HC HV]. unfold afill. apply sat_bind.
  - intro w. unfold type_phase. destruct CL as (CR & CX & _).
    assert (CO : forall w, Phi w (exc_of (fst ((match a_coercers a with
          | [] => raise (mkexc TypeError "failed type checking")
          | _ => let* y := run_coercers P (a_kind a) (a_style a) (a_coercers a) x in ret (y, PCoerce) end) w)))
          (snd ((match a_coercers a with
          | [] => raise (mkexc TypeError "failed type checking")
          | _ => let* y := run_coercers P (a_kind a) (a_style a) (a_coercers a) x in ret (y, PCoerce) end) w))).
    { intro w0. destruct (a_coercers a) eqn:EC.
      - cbn. apply CX. reflexivity.
      - apply sat_bind; [apply run_coercers_sat; assumption|]. intro. apply sat_ret. }
    destruct (a_style a).
    + cbn. apply CX. reflexivity.
    + cbn. apply CR.
    + destruct (type_check P (a_kind a) x w); cbn [style_eqb]; try apply CO; cbn; apply CR.
    + destruct (type_check P (a_kind a) x w); cbn [style_eqb]; try apply CO; cbn; apply CR.
  - intros p. apply sat_bind; [|intro; apply sat_ret].
    clear HC. generalize (fst p). generalize (a_validators a) HV. clear HV.
    induction l as [|v r IH]; intros HV z; cbn; [apply sat_ret|].
    apply sat_bind; [apply HV; left; reflexivity|]. intro. apply IH. intros; apply HV; right; assumption.
Qed.

Fixpoint filler_sat (f : filler) : Prop :=
  match f with
  | FAnn a | FType _ a _ | FTupleN _ a _ | FTupleV _ a _ | FIter _ _ a _ | FMap _ _ a _ _ | FGenN _ a _ => afiller_sat a
  | FDumb _ => True
  | FUnion _ _ subs _ => (fix all l := match l with [] => True | s :: r => filler_sat s /\ all r end) subs
  end.

Lemma filler_sat_union : forall ar ap subs b,
  filler_sat (FUnion ar ap subs b) <-> Forall filler_sat subs.
Proof.
  intros ar ap subs b. cbn. induction subs as [|s r IH]; split; intro H; auto.
  - constructor; [apply H | apply IH; apply H].
  - inversion H; subst. split; [assumption | apply IH; assumption].
Qed.

Lemma union_loop_sat : forall (fs : list (obj -> M W (obj * tpk))) x best key,
  (forall f, In f fs -> forall x, sat (f x)) -> sat (union_loop fs x best key).
Proof.
  destruct CL as (CR & CX & SEQ & CATCH).
  induction fs as [|f r IH]; intros x best key H; cbn; [apply sat_ret|].
  intro w. pose proof (H f (or_introl eq_refl) x w) as HF.
  assert (IH' : forall best key, sat (union_loop r x best key)) by (intros; apply IH; intros; apply H; right; assumption).
  destruct (f x w) as [[[v k]|e] w1]; cbn in HF.
  - destruct (rank_lt k key); [eapply SEQ; [eassumption|apply IH']|].
    destruct (rank_eq k key); (eapply SEQ; [eassumption|apply IH']).
  - destruct (is_Exception e) eqn:EX; [|assumption].
    destruct best as [|b0 br]; [destruct r as [|f' r']|].
    + assumption.
    + eapply CATCH; [eassumption|eassumption|]. apply IH'.
    + eapply CATCH; [eassumption|eassumption|]. apply IH'.
Qed.

Lemma fill_sat : forall f x, filler_sat f -> sat (fill P f x).
Proof.
  induction f using filler_ind'; intros x HS; try (apply afill_sat; exact HS).
  - apply sat_ret.
  - apply filler_sat_union in HS. cbn.
    destruct (forallb is_hollow subs); [apply sat_ret|].
    apply sat_bind.
    + apply union_loop_sat. intros g HG y. apply in_map_iff in HG. destruct HG as (s & <- & HI).
      eapply Forall_forall in H; [|eassumption]. apply H. eapply Forall_forall in HS; eassumption.
    + intros [bs key]. cbn. unfold union_finish. destruct bs as [|b0 br]; [apply sat_raise; reflexivity|].
      destruct key; [|apply sat_raise; reflexivity].
      destruct (existsb _ br); [apply sat_raise; reflexivity|apply sat_ret].
Qed.

Lemma call_sat : forall f x, filler_sat f -> sat (call P f x).
Proof.
  intros f x HS w. rewrite call_eq. pose proof (fill_sat f x HS w) as HF.
  destruct (fill P f x w) as [[[y p]|e] w1]; exact HF.
Qed.

(** ** Callbacks that binding adds *)

Lemma literal_validator_sat : forall lid vals x, sat (literal_validator P lid vals x).
Proof.
  intros lid vals x w. destruct CL as (CR & CX & SEQ & _). destruct RT as (_ & _ & _ & _ & HE & LG).
  assert (RE : forall w, Phi w (Some (match hash_error P x with Some e => e | None => mkexc ValueError "" end)) w).
  { intros u. destruct (hash_error P x) as [e|] eqn:E; [exact (HE x e E u)|]. apply CX; reflexivity. }
  unfold literal_validator.
  destruct (ty_mem P (type_of P x) (lit_types P lid vals w)); destruct (lit_mem P vals x); cbn.
  - apply CR.
  - apply RE.
  - apply LG.
  - eapply SEQ; [apply LG|]. apply RE.
Qed.

Lemma type_validator_sat : forall b x, sat (type_validator P b x).
Proof.
  intros b x w. destruct CL as (CR & CX & _ & _). destruct RT as (_ & _ & _ & IS & _). unfold type_validator.
  specialize (IS x b w). cbn in IS. destruct (issubclass P x b) as [[|]|e]; cbn in *.
  - apply CR.
  - apply CX; reflexivity.
  - assumption.
Qed.

Lemma iter_validator_sat : forall rk elt x, (forall x, sat (elt x)) -> sat (iter_validator P rk elt x).
Proof.
  intros rk elt x H. unfold iter_validator. destruct (elems P x) as [l|]; [|apply sat_raise; reflexivity].
  generalize (@nil obj). induction l as [|e r IH]; intros dn; cbn; [apply sat_ret|].
  apply sat_bind; [apply H|]. intro e'. destruct (py_is P e' e); [apply IH|].
  apply sat_bind; [apply sat_mapM; assumption|]. intro. apply RT.
Qed.

Lemma len_validator_sat : forall n x, sat (len_validator P n x).
Proof.
  intros n x. unfold len_validator. destruct (elems P x) as [l|]; [|apply sat_raise; reflexivity].
  destruct (Nat.eqb _ _); [apply sat_ret|apply sat_raise; reflexivity].
Qed.

Lemma tuple_validator_sat : forall (fs : list callback) x, (forall f, In f fs -> forall x, sat (f x)) -> sat (tuple_validator P fs x).
Proof.
  intros fs x. unfold tuple_validator. destruct (elems P x) as [l|]; [|intros; apply sat_raise; reflexivity].
  generalize (@nil obj). revert l. induction fs as [|f fr IH]; intros [|e r] dn H; cbn; try apply sat_ret.
  apply sat_bind; [apply H; left; reflexivity|]. intro e'.
  assert (H' : forall f, In f fr -> forall x, sat (f x)) by (intros; apply H; right; assumption).
  destruct (py_is P e' e); [apply IH; assumption|].
  apply sat_bind; [|intro; apply RT].
  clear IH H. revert r. induction fr as [|g gr IHz]; intros [|e2 r2]; cbn; try apply sat_ret.
  apply sat_bind; [apply H'; left; reflexivity|]. intro.
  apply sat_bind; [apply IHz; intros; apply H'; right; assumption|]. intro; apply sat_ret.
Qed.

Lemma map_validator_sat : forall rk fk fv x, (forall x, sat (fk x)) -> (forall x, sat (fv x)) -> sat (map_validator P rk fk fv x).
Proof.
  intros rk fk fv x HK HV. unfold map_validator. destruct (items P x) as [l|]; [|apply sat_raise; reflexivity].
  apply sat_bind.
  - apply sat_mapM. intros [k v]. unfold fill_pair. apply sat_bind; [apply HK|]. intro.
    apply sat_bind; [apply HV|]. intro. apply sat_ret.
  - intro l'. destruct (all_same P l l'); [apply sat_ret|apply RT].
Qed.

(** ** Tokens *)

Lemma run_seq_sat : forall (fs : list callback) x, (forall f, In f fs -> forall x, sat (f x)) -> sat (run_seq fs x).
Proof.
  induction fs as [|f r IH]; intros x H; cbn; [apply sat_ret|].
  apply sat_bind; [apply H; left; reflexivity|]. intro. apply IH. intros; apply H; right; assumption.
Qed.

Fixpoint ctoken_size (c : @ctoken obj ty W) : nat :=
  match c with
  | CCompose cs => S ((fix sum l := match l with [] => 0 | c :: r => ctoken_size c + sum r end) cs)
  | _ => 1
  end.

Lemma get_coercer_sat_aux : forall n k c f,
  ctoken_size c <= n -> ctoken_sat c -> get_coercer P k c = Ok f -> forall x, sat (f x).
Proof.
  induction n as [|n IH]; intros k c f HS HT HG x; [destruct c; cbn in HS; lia|].
  destruct c as [g| |cs|]; cbn in HG.
  - eapply HT; eassumption.
  - destruct k; try discriminate. injection HG as <-. unfold bool_from_int.
    destruct RT as (_ & _ & EI & _). apply sat_bind; [apply EI|]. intros [|]; [apply sat_ret|].
    apply sat_bind; [apply EI|]. intros [|]; [apply sat_ret|apply sat_raise; reflexivity].
  - oinv HG. injection HG as <-. apply run_seq_sat. intros g HI y.
    apply in_rev in HI. apply mapO_Forall2 in HGa.
    assert (HS' : (fix sum l := match l with [] => 0 | c :: r => ctoken_size c + sum r end) cs <= n) by (cbn in HS; lia).
    clear HS. cbn in HT. revert HT HS'.
    induction HGa as [|c0 f0 cs fs G0 HF IHF]; intros HT HS'; [destruct HI|].
    destruct HT as [T0 TR]. destruct HI as [->|HI].
    + eapply IH; [|exact T0|exact G0]. lia.
    + apply IHF; [assumption|assumption|lia].
  - discriminate.
Qed.

Lemma get_coercer_sat : forall k c f, ctoken_sat c -> get_coercer P k c = Ok f -> forall x, sat (f x).
Proof. intros. eapply get_coercer_sat_aux; [apply Nat.le_refl|eassumption|eassumption]. Qed.

Lemma tok_coercers_sat : forall k ts cs, Forall token_sat ts -> tok_coercers P k ts = Ok cs ->
  forall c, In c cs -> forall x, sat (c x).
Proof.
  induction ts as [|t r IH]; intros cs HT HC c HI x; cbn in HC.
  - injection HC as <-. destruct HI.
  - inversion HT; subst. destruct t; try (eapply IH; eassumption).
    oinv HC. oinv HC. injection HC as <-. destruct HI as [->|HI].
    + eapply get_coercer_sat; eassumption.
    + eapply IH; eassumption.
Qed.

Lemma tok_validators_sat : forall k ts cs, Forall token_sat ts -> tok_validators P k ts = Ok cs ->
  forall c, In c cs -> forall x, sat (c x).
Proof.
  induction ts as [|t r IH]; intros cs HT HC c HI x; cbn in HC.
  - injection HC as <-. destruct HI.
  - inversion HT; subst. destruct t; try (eapply IH; eassumption).
    oinv HC. oinv HC. injection HC as <-. destruct HI as [->|HI].
    + destruct v as [g|]; cbn in HCa; [|discriminate]. eapply H1; eassumption.
    + eapply IH; eassumption.
Qed.

Lemma aapplys_sat : forall ts a a1, Forall token_sat ts -> afiller_sat a -> aapplys P a ts = Ok a1 ->
  afiller_sat a1 /\ a_args a1 = a_args a.
Proof.
  intros ts a a1 HT [HC HV] H. apply aapplys_inv in H. destruct H as (cs & vs & C & V & -> & _).
  split; [|reflexivity]. split; cbn; intros c HI; apply in_app_or in HI; destruct HI as [HI|HI]; auto.
  - eapply tok_coercers_sat; eassumption.
  - eapply tok_validators_sat; eassumption.
Qed.

Lemma add_validator_sat : forall a v, afiller_sat a -> (forall x, sat (v x)) -> afiller_sat (add_validator a v).
Proof.
  intros a v [HC HV] H. split; cbn; [assumption|]. intros c HI. apply in_app_or in HI.
  destruct HI as [HI|[->|[]]]; auto.
Qed.

Lemma abind_sat : forall dflt a a1, Forall token_sat (a_args a) -> afiller_sat a -> abind P dflt a = Ok a1 -> afiller_sat a1.
Proof.
  intros dflt a a1 HT HS H. unfold abind in H. oinv H.
  apply aapplys_sat in Ha; [|assumption|assumption]. destruct Ha as [HS2 _].
  destruct (a_bound a0); [discriminate|].
  match type of H with context [if ?b then Raise (mkexc ValueError _) else _] => destruct b; [discriminate|] end.
  cbn in H.
  assert (HS3 : forall s b, afiller_sat (AF (a_kind a0) (a_args a0) s (a_coercers a0) (a_validators a0) b)) by (intros; exact HS2).
  destruct (a_kind a0);
    try (match type of H with context [if ?b then Raise _ else _] => destruct b; [discriminate|] end; injection H as <-; apply HS3).
  injection H as <-. destruct (ahollow _); [apply HS3|]. apply add_validator_sat; [apply HS3|].
  intro; apply literal_validator_sat.
Qed.

(** tokens and callbacks of a filler that is not bound yet *)
Definition afiller_pre (a : afiller) : Prop := afiller_sat a /\ Forall token_sat (a_args a).

Fixpoint filler_pre (f : filler) : Prop :=
  match f with
  | FAnn a | FType _ a _ => afiller_pre a
  | FDumb _ => True
  | FUnion ar ap subs _ => Forall token_sat ar /\ Forall token_sat ap /\
      (fix all l := match l with [] => True | s :: r => filler_pre s /\ all r end) subs
  | FTupleN _ a subs | FGenN _ a subs => afiller_pre a /\
      (fix all l := match l with [] => True | s :: r => filler_pre s /\ all r end) subs
  | FTupleV _ a s | FIter _ _ a s => afiller_pre a /\ filler_pre s
  | FMap _ _ a fk fv => afiller_pre a /\ filler_pre fk /\ filler_pre fv
  end.

Lemma all_Forall : forall {A} (Q : A -> Prop) (l : list A),
  (fix all l := match l with [] => True | s :: r => Q s /\ all r end) l <-> Forall Q l.
Proof.
  intros A Q l; induction l as [|a r IH]; split; intro H; auto.
  - constructor; [apply H | apply IH; apply H].
  - inversion H; subst. split; [assumption|apply IH; assumption].
Qed.

Lemma mapO_Forall : forall {A B} (g : A -> outcome B) (Q : A -> Prop) (R : B -> Prop) l l',
  mapO g l = Ok l' -> Forall Q l -> Forall (fun a => Q a -> forall b, g a = Ok b -> R b) l -> Forall R l'.
Proof.
  intros A B g Q R l l' H HQ HF. apply mapO_Forall2 in H.
  induction H as [|a b l l' HG H2 IH]; [constructor|].
  inversion HQ; subst. inversion HF; subst. constructor; auto.
Qed.

Lemma apre_bind : forall dflt pre a b1 b2,
  afiller_pre a -> Forall token_sat pre -> aapplys P a pre = Ok b1 -> abind P dflt b1 = Ok b2 -> afiller_sat b2.
Proof.
  intros dflt pre a b1 b2 [HS HA] HP H1 H2. apply aapplys_sat in H1; [|assumption|assumption].
  destruct H1 as [HS1 EA]. eapply abind_sat; [|eassumption|eassumption]. rewrite EA; assumption.
Qed.

Lemma bind_with_sat : forall dflt f pre f',
  Forall token_sat pre -> filler_pre f -> bind_with P dflt pre f = Ok f' -> filler_sat f'.
Proof.
  intros dflt. induction f using filler_ind'; intros pre f' HP HF HB; cbn in HB.
  - oinv HB. oinv HB. injection HB as <-. cbn. eapply apre_bind; eassumption.
  - destruct pre; [|discriminate]. destruct b; [discriminate|]. destruct (style_eqb dflt SHollow); [|discriminate].
    injection HB as <-. exact I.
  - destruct b; [discriminate|]. oinv HB. injection HB as <-. apply filler_sat_union.
    destruct HF as (H1 & H2 & H3). apply all_Forall in H3.
    eapply mapO_Forall; [exact HBa|exact H3|]. eapply Forall_impl; [|exact H].
    intros s IHs Ps s' Bs. eapply IHs; [|eassumption|eassumption].
    rewrite !Forall_app. auto.
  - oinv HB. destruct b; [discriminate|]. oinv HB. injection HB as <-. cbn.
    assert (afiller_sat a1) by (eapply apre_bind; eassumption).
    destruct (ahollow a1); [assumption|]. apply add_validator_sat; [assumption|]. intro; apply type_validator_sat.
  - oinv HB. destruct b; [discriminate|]. oinv HB. oinv HB. destruct HF as [HFa HFs]. apply all_Forall in HFs.
    assert (S1 : afiller_sat a1) by (eapply apre_bind; eassumption).
    assert (S2 : Forall filler_sat a2).
    { eapply mapO_Forall; [exact HBa1|exact HFs|]. eapply Forall_impl; [|exact H].
      intros s IHs Ps s' Bs. eapply IHs; [constructor|eassumption|eassumption]. }
    assert (S3 : afiller_sat (if ahollow a1 then a1 else add_validator a1 (len_validator P (List.length subs)))).
    { destruct (ahollow a1); [assumption|]. apply add_validator_sat; [assumption|]. intro; apply len_validator_sat. }
    destruct (forallb is_hollow a2); [injection HB as <-; exact S3|].
    match type of HB with context [if ?b then Raise _ else _] => destruct b; [discriminate|] end. injection HB as <-.
    apply add_validator_sat; [assumption|]. intro x. apply tuple_validator_sat.
    intros g HG y. apply in_map_iff in HG. destruct HG as (s & <- & HI). apply call_sat. eapply Forall_forall in S2; eassumption.
  - oinv HB. destruct b; [discriminate|]. oinv HB. oinv HB. destruct HF as [HFa HFs].
    assert (S1 : afiller_sat a1) by (eapply apre_bind; eassumption).
    assert (S2 : filler_sat a2) by (eapply IHf; [constructor|eassumption|eassumption]).
    destruct (is_hollow a2); [injection HB as <-; exact S1|]. destruct (ahollow a1); [discriminate|]. injection HB as <-.
    apply add_validator_sat; [assumption|]. intro x. apply iter_validator_sat. intro; apply call_sat; assumption.
  - oinv HB. destruct b; [discriminate|]. oinv HB. oinv HB. destruct HF as [HFa HFs].
    assert (S1 : afiller_sat a1) by (eapply apre_bind; eassumption).
    assert (S2 : filler_sat a2) by (eapply IHf; [constructor|eassumption|eassumption]).
    destruct (is_hollow a2); [injection HB as <-; exact S1|]. destruct (ahollow a1); [discriminate|]. injection HB as <-.
    apply add_validator_sat; [assumption|]. intro x. apply iter_validator_sat. intro; apply call_sat; assumption.
  - oinv HB. destruct b; [discriminate|]. oinv HB. oinv HB. oinv HB. destruct HF as (HFa & HFk & HFv).
    assert (S1 : afiller_sat a1) by (eapply apre_bind; eassumption).
    assert (S2 : filler_sat a2) by (eapply IHf1; [constructor|eassumption|eassumption]).
    assert (S3 : filler_sat a3) by (eapply IHf2; [constructor|eassumption|eassumption]).
    destruct (is_hollow a2 && is_hollow a3); [injection HB as <-; exact S1|]. destruct (ahollow a1); [discriminate|]. injection HB as <-.
    apply add_validator_sat; [assumption|]. intro x. apply map_validator_sat; intro; apply call_sat; assumption.
  - oinv HB. destruct b; [discriminate|]. oinv HB. oinv HB. injection HB as <-. destruct HF as [HFa HFs].
    eapply apre_bind; eassumption.
Qed.

Lemma mk_afiller_pre : forall k args, Forall token_sat args -> afiller_pre (mk_afiller k args).
Proof. intros k args H. split; [split; intros c []|assumption]. Qed.

Lemma gaf_pre : forall h args f, Forall token_sat (hint_tokens h) -> Forall token_sat args ->
  gaf P args h = Ok f -> filler_pre f.
Proof.
  induction h using hint_ind'; intros args f HT HA HG; cbn in HG; cbn in HT;
    try (injection HG as <-; apply mk_afiller_pre; assumption).
  - assert (D : (exists h' ts, h = HAnn h' ts) \/ (forall A (x y : A), match h with HAnn _ _ => x | _ => y end = y)).
    { destruct h; auto. left; eauto. }
    destruct D as [(h' & ts & ->)|D].
    + unfold dumb in HG. destruct args; [|discriminate]. injection HG as <-. exact I.
    + eapply IHh; [eassumption|eassumption|]. rewrite <- HG. symmetry. apply (D (outcome filler)).
  - oinv HG. injection HG as <-. cbn. split; [assumption|]. split; [constructor|]. apply all_Forall.
    eapply mapO_Forall with (Q := fun h => Forall token_sat (hint_tokens h)); [exact HGa| |].
    + apply Forall_forall. intros h HI. apply Forall_forall. intros t Ht. eapply Forall_forall in HT; [eassumption|].
      apply in_flat_map. eauto.
    + eapply Forall_impl; [|exact H]. intros h IH Th b Gb. eapply IH; [eassumption|constructor|eassumption].
  - oinv HG. injection HG as <-. cbn. split; [apply mk_afiller_pre; assumption|]. apply all_Forall.
    eapply mapO_Forall with (Q := fun h => Forall token_sat (hint_tokens h)); [exact HGa| |].
    + apply Forall_forall. intros h HI. apply Forall_forall. intros t Ht. eapply Forall_forall in HT; [eassumption|].
      apply in_flat_map. eauto.
    + eapply Forall_impl; [|exact H]. intros h IH Th b Gb. eapply IH; [eassumption|constructor|eassumption].
  - oinv HG. injection HG as <-. cbn. split; [apply mk_afiller_pre; assumption|]. eapply IHh; [eassumption|constructor|eassumption].
  - oinv HG. injection HG as <-. cbn. split; [apply mk_afiller_pre; assumption|]. eapply IHh; [eassumption|constructor|eassumption].
  - oinv HG. oinv HG. injection HG as <-. apply Forall_app in HT. destruct HT. cbn.
    split; [apply mk_afiller_pre; assumption|]. split; [eapply IHh1; [exact H|constructor|exact HGa]|eapply IHh2; [exact H0|constructor|exact HGa0]].
  - oinv HG. injection HG as <-. cbn. split; [apply mk_afiller_pre; assumption|]. apply all_Forall.
    eapply mapO_Forall with (Q := fun h => Forall token_sat (hint_tokens h)); [exact HGa| |].
    + apply Forall_forall. intros h HI. apply Forall_forall. intros t' Ht. eapply Forall_forall in HT; [eassumption|].
      apply in_flat_map. eauto.
    + eapply Forall_impl; [|exact H]. intros h IH Th b Gb. eapply IH; [eassumption|constructor|eassumption].
  - unfold dumb in HG. destruct args; [|discriminate]. injection HG as <-. exact I.
  - apply Forall_app in HT. destruct HT. eapply IHh; [eassumption| |eassumption]. apply Forall_app. auto.
Qed.

Lemma aapply_pre : forall a t a1, token_sat t -> afiller_pre a -> aapply P a t = Ok a1 -> afiller_pre a1.
Proof.
  intros a t a1 HT [HS HA] H.
  destruct (aapplys_sat [t] a a1) as [H1 H2]; auto.
  - cbn. rewrite H. reflexivity.
  - split; [assumption|]. rewrite H2. assumption.
Qed.

Lemma apply_pre : forall f t f1, token_sat t -> filler_pre f -> apply P f t = Ok f1 -> filler_pre f1.
Proof.
  intros f t f1 HT HF H. destruct f; cbn in H.
  - oinv H. injection H as <-. eapply aapply_pre; eassumption.
  - discriminate.
  - destruct bound; [discriminate|]. injection H as <-. cbn in *. destruct HF as (H1 & H2 & H3).
    split; [assumption|]. split; [|assumption]. apply Forall_app. auto.
  - oinv H. injection H as <-. eapply aapply_pre; eassumption.
  - oinv H. injection H as <-. cbn in *. destruct HF. split; [eapply aapply_pre; eassumption|assumption].
  - oinv H. injection H as <-. cbn in *. destruct HF. split; [eapply aapply_pre; eassumption|assumption].
  - oinv H. injection H as <-. cbn in *. destruct HF. split; [eapply aapply_pre; eassumption|assumption].
  - oinv H. injection H as <-. cbn in *. destruct HF. split; [eapply aapply_pre; eassumption|assumption].
  - oinv H. injection H as <-. cbn in *. destruct HF. split; [eapply aapply_pre; eassumption|assumption].
Qed.

Lemma update_nth_pre : forall n t l l1, token_sat t -> Forall filler_pre l ->
  update_nth n (fun sf => apply P sf t) l = Ok l1 -> Forall filler_pre l1.
Proof.
  induction n as [|n IH]; intros t [|f r] l1 HT HF H; cbn in H; try discriminate; oinv H; injection H as <-;
    inversion HF; subst; constructor; try assumption.
  - eapply apply_pre; eassumption.
  - eapply IH; eassumption.
Qed.

Lemma apply_at_pre : forall k f t f1, token_sat t -> filler_pre f -> apply_at P k t f = Ok f1 -> filler_pre f1.
Proof.
  intros [n|] f t f1 HT HF H; [|eapply apply_pre; eassumption]. destruct f; cbn in H; try discriminate.
  - oinv H. injection H as <-. cbn in *. destruct HF as (H1 & H2 & H3). split; [assumption|]. split; [assumption|].
    apply all_Forall. apply all_Forall in H3. eapply update_nth_pre; eassumption.
  - oinv H. injection H as <-. cbn in *. destruct HF as (H1 & H3). split; [assumption|].
    apply all_Forall. apply all_Forall in H3. eapply update_nth_pre; eassumption.
  - destruct n; [|discriminate]. oinv H. injection H as <-. cbn in *. destruct HF. split; [assumption|eapply apply_pre; eassumption].
  - destruct n; [|discriminate]. oinv H. injection H as <-. cbn in *. destruct HF. split; [assumption|eapply apply_pre; eassumption].
  - destruct n as [|[|n]]; [| |discriminate]; oinv H; injection H as <-; cbn in *; destruct HF as (H1 & H2 & H3).
    + split; [assumption|]. split; [eapply apply_pre; [exact HT|exact H2|exact Ha]|assumption].
    + split; [assumption|]. split; [assumption|eapply apply_pre; [exact HT|exact H3|exact Ha]].
Qed.

Lemma apply_ops_pre : forall ops f f1, Forall token_sat (map snd ops) -> filler_pre f -> apply_ops P f ops = Ok f1 -> filler_pre f1.
Proof.
  induction ops as [|[k t] r IH]; intros f f1 HT HF H; cbn in *.
  - injection H as <-. assumption.
  - inversion HT; subst. oinv H. eapply IH; [eassumption| |eassumption]. eapply apply_at_pre; eassumption.
Qed.

(** filling with a field's filler stays within [Phi] *)
Theorem make_filler_sat : forall dflt h ops f,
  make_filler P dflt h ops = Ok f -> Forall token_sat (hint_tokens h ++ map snd ops) ->
  forall x, sat (call P f x).
Proof.
  intros dflt h ops f HM HT x. apply Forall_app in HT. destruct HT as [H1 H2].
  unfold make_filler in HM. oinv HM. oinv HM. apply call_sat.
  eapply bind_with_sat; [| |exact HM]; [constructor|].
  eapply apply_ops_pre; [eassumption| |eassumption]. eapply gaf_pre; [eassumption| |exact HMa]. constructor.
Qed.

End Closed.
End Inv.
