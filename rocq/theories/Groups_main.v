(** Groups_main.v -- proofs of the properties stated in Props_Groups.v: Unions inside Unions (typing_fillers.py:19-88) *)

From Verif Require Import Base Py Filler Spec_Filler Demo.
From Verif Require Filler_proofs Filler_shape Filler_eqs Filler_main Hints_docs Names_main.
Open Scope string_scope.
Open Scope list_scope.

Import Filler_proofs Filler_eqs.
Section Groups.
Context {obj ty W : Type} (P : Py obj ty W).
Notation fills := (list (obj -> M W (obj * tpk))).

(** what a Union that is a member of another makes of its members' outcomes *)
Definition group_result (os : list (outcome (obj * tpk))) : outcome (obj * tpk) :=
  match winners (successes os) with
  | [] => match last os (Raise (mkexc LookupError "list index out of range")) with Raise e => Raise e | Ok p => Ok p end
  | (v, k) :: r => if forallb (fun s => py_is P (fst s) v) r then Ok (v, k) else Raise (mkexc ValueError "multiple sub-fillers matched")
  end.

Lemma successes_in : forall os (p : obj * tpk), In p (successes os) <-> In (Ok p) os.
Proof.
  intros os p. unfold successes. rewrite in_flat_map. split.
  - intros ([q|e] & I & J); [destruct J as [->|[]]; exact I|destruct J].
  - intros I. exists (Ok p). split; [exact I|left; reflexivity].
Qed.

Lemma group_spec : forall (fs : fills) x w, fs <> [] ->
  (let* bk := union_loop fs x [] None in union_finish P (fst bk) (snd bk)) w =
  (let* os := attempts fs x in lift (group_result os)) w.
Proof.
  intros fs x w HN. pose proof (union_loop_spec P fs x [] w (or_introl HN)) as HU. cbn [best_of winners filter fst snd] in HU.
  unfold bind at 1. rewrite HU. unfold as_loop, bind. destruct (attempts fs x w) as [[os|e] w1] eqn:EA; [|reflexivity].
  cbn [app]. unfold group_result, best_of. pose proof (attempts_length _ _ _ _ _ EA) as LEN.
  assert (ON : os <> []) by (destruct os; [destruct fs; [congruence|discriminate]|discriminate]).
  destruct (winners (successes os)) as [|[v k] r] eqn:EW.
  - rewrite (last_irrel os _ (Raise (mkexc LookupError "list index out of range")) ON).
    destruct (last os _) as [p|e] eqn:EL; [|reflexivity]. exfalso.
    apply winners_nil in EW. pose proof (last_In os (Raise (mkexc LookupError "list index out of range")) ON) as HI.
    rewrite EL in HI. apply successes_in in HI. rewrite EW in HI. destruct HI.
  - unfold ret, union_finish. cbn [fst snd map].
    rewrite (existsb_forallb (fun y => py_is P y v) (map fst r)).
    assert (E : forallb (fun y => py_is P y v) (map fst r) = forallb (fun s => py_is P (fst s) v) r).
    { clear. induction r as [|s r IH]; cbn; [reflexivity|]. rewrite IH. reflexivity. }
    rewrite E. destruct (forallb _ r); reflexivity.
Qed.

Lemma attempts_app : forall (l r : fills) x w, attempts (l ++ r) x w = (let* a := attempts l x in let* b := attempts r x in ret (a ++ b)) w.
Proof.
  induction l as [|f l IH]; intros r x w; cbn.
  - unfold bind. cbn. destruct (attempts r x w) as [[os|e] w1]; reflexivity.
  - unfold bind. cbn. destruct (f x w) as [[p|e] w1]; cbn.
    + rewrite IH. unfold bind. destruct (attempts l x w1) as [[os|e] w2]; [|reflexivity]. cbn.
      destruct (attempts r x w2) as [[os'|e] w3]; reflexivity.
    + destruct (is_Exception e); [|reflexivity]. rewrite IH. unfold bind. destruct (attempts l x w1) as [[os|e'] w2]; [|reflexivity]. cbn.
      destruct (attempts r x w2) as [[os'|e'] w3]; reflexivity.
Qed.

Lemma attempts_errors : forall (fs : fills) x w os w', attempts fs x w = (Ok os, w') -> forall e, In (Raise e) os -> is_Exception e = true.
Proof.
  induction fs as [|f r IH]; intros x w os w' H e I; cbn in H.
  - injection H as <- <-. destruct I.
  - destruct (f x w) as [[p|e0] w1].
    + minv H. injection H as <- <-. destruct I as [E|I]; [discriminate|]. eapply IH; eassumption.
    + destruct (is_Exception e0) eqn:EX; [|discriminate]. minv H. injection H as <- <-. destruct I as [E|I]; [congruence|]. eapply IH; eassumption.
Qed.
Lemma attempts_stop : forall (fs : fills) x w e w', attempts fs x w = (Raise e, w') -> is_Exception e = false.
Proof.
  induction fs as [|f r IH]; intros x w e w' H; cbn in H; [discriminate|].
  destruct (f x w) as [[p|e0] w1].
  - unfold bind in H. destruct (attempts r x w1) as [[os|e1] w2] eqn:E; [discriminate|]. injection H as <- <-. eapply IH; eassumption.
  - destruct (is_Exception e0) eqn:EX; [|injection H as <- <-; exact EX]. unfold bind in H. destruct (attempts r x w1) as [[os|e1] w2] eqn:E; [discriminate|]. injection H as <- <-. eapply IH; eassumption.
Qed.

Lemma group_errors : forall (fs : fills) x w os w' e, fs <> [] -> attempts fs x w = (Ok os, w') -> group_result os = Raise e -> is_Exception e = true.
Proof.
  intros fs x w os w' e HN HA H. unfold group_result in H. pose proof (attempts_length _ _ _ _ _ HA) as LEN.
  assert (ON : os <> []) by (destruct os; [destruct fs; [congruence|discriminate]|discriminate]).
  destruct (winners (successes os)) as [|[v k] r].
  - destruct (last os _) as [p|e0] eqn:EL; [discriminate|]. injection H as <-.
    eapply attempts_errors; [exact HA|]. rewrite <- EL. apply last_In. exact ON.
  - destruct (forallb _ r); [discriminate|]. injection H as <-. reflexivity.
Qed.

(** a Union inside is one attempt *)
Lemma group_attempt : forall (hs : fills) (f : obj -> M W (obj * tpk)) x w, hs <> [] ->
  (forall w, f x w = (let* bk := union_loop hs x [] None in union_finish P (fst bk) (snd bk)) w) ->
  attempts [f] x w = (let* os := attempts hs x in ret [group_result os]) w.
Proof.
  intros hs f x w HN HF. cbn. rewrite HF, group_spec by exact HN. unfold bind. destruct (attempts hs x w) as [[os|e] w1] eqn:EA; cbn.
  - destruct (group_result os) as [p|e] eqn:EG; cbn; [reflexivity|]. rewrite (group_errors _ _ _ _ _ _ HN EA EG). reflexivity.
  - rewrite (attempts_stop _ _ _ _ _ EA). reflexivity.
Qed.

Lemma group_in : forall os v k, os <> [] -> group_result os = Ok (v, k) -> In (Ok (v, k)) os.
Proof.
  intros os v k HN H. unfold group_result in H. destruct (winners (successes os)) as [|[v0 k0] r] eqn:EW.
  - destruct (last os _) as [p|e0] eqn:EL; [|discriminate]. injection H as ->. rewrite <- EL. apply last_In. exact HN.
  - destruct (forallb _ r); [|discriminate]. injection H as -> ->. apply successes_in. apply winners_in. rewrite EW. left. reflexivity.
Qed.

Lemma group_best : forall os y p, In (Ok (y, p)) os ->
  (forall v' p', In (Ok (v', p')) os -> tpk_rank p <= tpk_rank p') ->
  (forall v' p', In (Ok (v', p')) os -> tpk_rank p' = tpk_rank p -> v' = y) ->
  exists k, group_result os = Ok (y, k) /\ tpk_rank k = tpk_rank p.
Proof.
  intros os y p HI HM HU. unfold group_result. apply successes_in in HI.
  assert (HW : In (y, p) (winners (successes os))).
  { unfold winners. apply filter_In. split; [exact HI|]. apply forallb_forall. intros [v' p'] I. apply successes_in in I. apply Nat.leb_le. cbn. eapply HM; eassumption. }
  destruct (winners (successes os)) as [|[v k] r] eqn:EW; [destruct HW|]. rewrite <- EW in HW.
  assert (HV : forall v' k', In (v', k') (winners (successes os)) -> v' = y /\ tpk_rank k' = tpk_rank p).
  { intros v' k' I. pose proof (winners_same_rank _ _ _ I HW) as ER. cbn in ER. split; [|exact ER]. apply (HU v' k'); [|exact ER]. apply successes_in. apply winners_in. exact I. }
  destruct (HV v k) as [-> ER]; [rewrite EW; left; reflexivity|]. exists k. split; [|exact ER].
  replace (forallb (fun s => py_is P (fst s) y) r) with true; [reflexivity|]. symmetry. apply forallb_forall. intros [v' k'] I. cbn.
  destruct (HV v' k') as [-> _]; [rewrite EW; right; exact I|]. destruct (py_isP P y y); congruence.
Qed.

Lemma grouped_verdict : forall A H B y, H <> [] -> verdict P (A ++ H ++ B) = Ok y -> verdict P (A ++ [group_result H] ++ B) = Ok y.
Proof.
  intros A H B y HN HV. pose proof (proj1 (proj1 (Filler_main.c09_verdict_proof P (A ++ H ++ B)) y) HV) as (p & [HI HM] & HU). clear HV.
  assert (HU' : forall v' p', In (Ok (v', p')) (A ++ H ++ B) -> tpk_rank p' = tpk_rank p -> v' = y).
  { intros v' p' I E. apply (HU v' p'). split; [exact I|]. intros v2 p2 I2. rewrite E. eapply HM; exact I2. }
  assert (INC : forall v' p', In (Ok (v', p')) (A ++ [group_result H] ++ B) -> In (Ok (v', p')) (A ++ H ++ B)).
  { intros v' p' I. apply in_app_or in I. apply in_or_app. destruct I as [I|I]; [left; exact I|right]. apply in_or_app. cbn in I. destruct I as [I|I]; [left|right; exact I].
    apply group_in; assumption. }
  assert (EX : exists k, In (Ok (y, k)) (A ++ [group_result H] ++ B) /\ tpk_rank k = tpk_rank p).
  { apply in_app_or in HI. destruct HI as [HI|HI]; [exists p; split; [apply in_or_app; left; exact HI|reflexivity]|].
    apply in_app_or in HI. destruct HI as [HI|HI]; [|exists p; split; [apply in_or_app; right; right; exact HI|reflexivity]].
    destruct (group_best H y p HI) as (k & EG & EK).
    - intros v' p' I. apply (HM v' p'). apply in_or_app. right. apply in_or_app. left. exact I.
    - intros v' p' I E. apply (HU' v' p'); [|exact E]. apply in_or_app. right. apply in_or_app. left. exact I.
    - exists k. split; [|exact EK]. apply in_or_app. right. left. exact EG. }
  destruct EX as (k & IK & EK).
  apply (proj2 (proj1 (Filler_main.c09_verdict_proof P (A ++ [group_result H] ++ B)) y)). exists k. split; [split; [exact IK|]|].
  - intros v' p' I. rewrite EK. apply (HM v' p'). apply INC. exact I.
  - intros v' p' [I M]. apply (HU' v' p'); [apply INC; exact I|]. apply M in IK. apply INC in I. apply HM in I. lia.
Qed.

Lemma some_success : forall os, (exists p, In (Ok p) os) -> (exists v, verdict P os = Ok v) \/ verdict P os = Raise (mkexc ValueError "multiple sub-fillers matched").
Proof.
  intros os (p & I). unfold verdict. apply successes_in in I. destruct (winners (successes os)) as [|[v k] r] eqn:EW; [apply winners_nil in EW; rewrite EW in I; destruct I|].
  destruct (forallb _ r); eauto.
Qed.

Lemma ok_success : forall os v, os <> [] -> verdict P os = Ok v -> exists p, In (Ok p) os.
Proof.
  intros os v HN H. unfold verdict in H. destruct (winners (successes os)) as [|[v0 k] r] eqn:EW.
  - destruct (last os _) as [p|e] eqn:EL; [|discriminate]. exists p. rewrite <- EL. apply last_In. exact HN.
  - exists (v0, k). apply successes_in. apply winners_in. rewrite EW. left. reflexivity.
Qed.
End Groups.

(** [h] is a Union of [hs] that typing does not merge with a Union around it: a NewType of it, or
    Annotated with arguments that are no tokens *)
Definition a_group {obj ty W} (hs : list (@hint obj ty W)) (h : @hint obj ty W) : Prop :=
  h = HNewType (HUnion hs) \/ h = HAnn (HUnion hs) [].

Import Names_main.
Lemma group_gaf : forall {obj ty W} (P : Py obj ty W) hs h, a_group hs h ->
  gaf P [] h = do subs <- mapO (gaf P []) hs; Ok (FUnion [] [] subs false).
Proof. intros obj ty W P hs h [-> | ->]; reflexivity. Qed.
Lemma union_made : forall {obj ty W} (P : Py obj ty W) d hs toks,
  make_filler P d (HAnn (HUnion hs) toks) [] = do a <- mapO (gaf P []) hs; do b <- mapO (bind_with P d toks) a; Ok (FUnion toks [] b true).
Proof.
  intros obj ty W P d hs toks. unfold make_filler, get_filler, bind_filler. cbn. rewrite app_nil_r. destruct (mapO (gaf P []) hs) as [a|e]; [|reflexivity]. cbn.
  rewrite app_nil_r. reflexivity.
Qed.
Lemma both_made : forall {obj ty W} (P : Py obj ty W) d toks l hs h r, a_group hs h ->
  (exists A H B, make_filler P d (HAnn (HUnion (l ++ h :: r)) toks) [] = Ok (FUnion toks [] (A ++ FUnion [] toks H true :: B) true) /\
     make_filler P d (HAnn (HUnion (l ++ hs ++ r)) toks) [] = Ok (FUnion toks [] (A ++ H ++ B) true) /\
     List.length H = List.length hs /\ forallb is_hollow H = hollow_hint d no_sub_tokens toks [] (HUnion hs)) \/
  (exists e, make_filler P d (HAnn (HUnion (l ++ h :: r)) toks) [] = Raise e /\ make_filler P d (HAnn (HUnion (l ++ hs ++ r)) toks) [] = Raise e).
Proof.
  intros obj ty W P d toks l hs h r HG. rewrite !union_made. change (h :: r) with ([h] ++ r). rewrite !mapO_app. cbn [mapO]. rewrite (group_gaf P hs h HG).
  destruct (mapO (gaf P []) l) as [A|e] eqn:EA; [|right; eexists; split; reflexivity]. cbn [obind].
  destruct (mapO (gaf P []) hs) as [H|e] eqn:EH; [|right; eexists; split; reflexivity]. cbn [obind].
  destruct (mapO (gaf P []) r) as [B|e] eqn:EB; [|right; eexists; split; reflexivity]. cbn [obind].
  rewrite !mapO_app. cbn [app mapO bind_with].
  destruct (mapO (bind_with P d toks) A) as [A'|e]; [|right; eexists; split; reflexivity]. cbn [obind].
  destruct (mapO (bind_with P d toks) H) as [H'|e] eqn:EH'; [|right; eexists; split; reflexivity]. cbn [obind].
  destruct (mapO (bind_with P d toks) B) as [B'|e]; [|right; eexists; split; reflexivity]. cbn [obind].
  left. exists A', H', B'. split; [reflexivity|]. split; [reflexivity|]. split.
  - rewrite (mapO_length _ _ _ EH'), (mapO_length _ _ _ EH). reflexivity.
  - assert (M : make_filler P d (HAnn (HUnion hs) toks) [] = Ok (FUnion toks [] H' true)) by (rewrite union_made, EH; cbn [obind]; rewrite EH'; reflexivity).
    apply Filler_shape.make_hollow in M. cbn [is_hollow] in M. rewrite M. cbn. rewrite !app_nil_r. reflexivity.
Qed.

Lemma c166_statement_proof : forall {obj ty W} (P : Py obj ty W) d toks l hs h r e, a_group hs h ->
  ((exists f, make_filler P d (HAnn (HUnion (l ++ h :: r)) toks) [] = Ok f) <->
   (exists g, make_filler P d (HAnn (HUnion (l ++ hs ++ r)) toks) [] = Ok g)) /\
  (make_filler P d (HAnn (HUnion (l ++ h :: r)) toks) [] = Raise e <->
   make_filler P d (HAnn (HUnion (l ++ hs ++ r)) toks) [] = Raise e).
Proof.
  intros obj ty W P d toks l hs h r e HG. destruct (both_made P d toks l hs h r HG) as [(A & H & B & -> & -> & _)|(e0 & -> & ->)].
  - split; [split; intros _; eexists; reflexivity|split; discriminate].
  - split; [split; intros (f & E); discriminate|reflexivity].
Qed.

Lemma c166_values_proof : forall {obj ty W} (P : Py obj ty W) d toks l hs h r f g, a_group hs h -> hs <> [] ->
  hollow_hint d no_sub_tokens toks [] (HUnion hs) = false ->
  make_filler P d (HAnn (HUnion (l ++ h :: r)) toks) [] = Ok f ->
  make_filler P d (HAnn (HUnion (l ++ hs ++ r)) toks) [] = Ok g -> forall x w,
  (forall y w', call P g x w = (Ok y, w') -> call P f x w = (Ok y, w')) /\
  (forall y w', call P f x w = (Ok y, w') -> call P g x w = (Ok y, w') \/ exists m, call P g x w = (Raise (mkexc ValueError m), w')) /\
  snd (call P f x w) = snd (call P g x w).
Proof.
  intros obj ty W P d toks l hs h r f g HG HN HH HF HG' x w.
  destruct (both_made P d toks l hs h r HG) as [(A & H & B & EF & EG & HL & EH)|(e0 & EF & _)]; [|congruence].
  rewrite EF in HF. rewrite EG in HG'. injection HF as <-. injection HG' as <-. rewrite HH in EH.
  assert (HN' : H <> []) by (destruct H; [destruct hs; [congruence|discriminate]|discriminate]).
  assert (NF : forallb is_hollow (A ++ FUnion [] toks H true :: B) = false) by (rewrite forallb_app; cbn; rewrite EH, andb_false_r; reflexivity).
  assert (NG : forallb is_hollow (A ++ H ++ B) = false) by (rewrite !forallb_app; rewrite EH, andb_false_r; reflexivity).
  assert (CF : call P (FUnion toks [] (A ++ FUnion [] toks H true :: B) true) x w = (let* os := attempts (map (fill P) (A ++ FUnion [] toks H true :: B)) x in lift (verdict P os)) w).
  { rewrite plain_call by discriminate. cbn [fill]. rewrite NF. apply union_spec. destruct A; discriminate. }
  assert (CG : call P (FUnion toks [] (A ++ H ++ B) true) x w = (let* os := attempts (map (fill P) (A ++ H ++ B)) x in lift (verdict P os)) w).
  { rewrite plain_call by discriminate. cbn [fill]. rewrite NG. apply union_spec. destruct A; [destruct H; [congruence|discriminate]|discriminate]. }
  rewrite CF, CG. clear CF CG. change (FUnion [] toks H true :: B) with ([FUnion [] toks H true] ++ B). rewrite !map_app. cbn [map]. unfold bind. rewrite !attempts_app. unfold bind.
  destruct (attempts (map (fill P) A) x w) as [[oa|e] w1]; [|split; [discriminate|split; [discriminate|reflexivity]]].
  rewrite !attempts_app. unfold bind.
  rewrite (group_attempt P (map (fill P) H) (fill P (FUnion [] toks H true)) x w1).
  2:{ destruct H; [congruence|discriminate]. }
  2:{ intros w2. cbn [fill]. rewrite EH. reflexivity. }
  unfold bind. destruct (attempts (map (fill P) H) x w1) as [[oh|e] w2] eqn:EOH; [|split; [discriminate|split; [discriminate|reflexivity]]]. cbn.
  destruct (attempts (map (fill P) B) x w2) as [[ob|e] w3]; [|split; [discriminate|split; [discriminate|reflexivity]]]. cbn.
  assert (NO : oh <> []). { apply attempts_length in EOH. rewrite map_length in EOH. destruct oh; [destruct H; [congruence|discriminate]|discriminate]. }
  split; [|split; [|reflexivity]].
  - intros y w' E. destruct (verdict P (oa ++ oh ++ ob)) as [v|e] eqn:EV; [|discriminate]. cbn in E. injection E as -> <-.
    pose proof (grouped_verdict P oa oh ob y NO EV) as E2. cbn in E2. rewrite E2. reflexivity.
  - intros y w' E. destruct (verdict P (oa ++ group_result P oh :: ob)) as [v|e] eqn:EV; [|discriminate]. cbn in E. injection E as -> <-.
    destruct (some_success P (oa ++ oh ++ ob)) as [(v & E)|E].
    + destruct (ok_success P (oa ++ group_result P oh :: ob) y ltac:(destruct oa; discriminate) EV) as ([v k] & I). exists (v, k). apply in_app_or in I. apply in_or_app.
      destruct I as [I|[I|I]]; [left; exact I|right; apply in_or_app; left; apply group_in with P; assumption|right; apply in_or_app; right; exact I].
    + left. rewrite E. pose proof (grouped_verdict P oa oh ob v NO E) as E2. cbn in E2. rewrite E2 in EV. injection EV as ->. reflexivity.
    + right. rewrite E. eexists. reflexivity.
Qed.

Definition gives (a b : dobj) : @token dobj dty demo_state :=
  TCoerce (CGlobal (fun _ => Ok (fun x => if dis x a then ret b else raise (mkexc ValueError "")))).

Lemma c166_ambiguous_refuted_proof : exists hs h r f g x y w m,
  a_group hs h /\ hollow_hint SCheck no_sub_tokens [] [] (HUnion hs) = false /\
  make_filler demo0 SCheck (HAnn (HUnion (h :: r)) []) [] = Ok f /\
  make_filler demo0 SCheck (HAnn (HUnion (hs ++ r)) []) [] = Ok g /\
  call demo0 f x w = (Ok y, w) /\ call demo0 g x w = (Raise (mkexc ValueError m), w).
Proof.
  exists [HAnn (HTy TInt) [gives DNone (DInt 0)]; HAnn (HTy TStr) [gives DNone (DStr "")]]. eexists. exists [HAnn (HTy TBool) [gives DNone (DBool false)]].
  do 2 eexists. exists DNone, (DBool false), st0. eexists. split; [left; reflexivity|]. repeat split; reflexivity.
Qed.
