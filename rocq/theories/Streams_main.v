(** Streams_main.v -- proofs of the properties stated in Props_Streams.v: exports to files and imports from them *)

From Coq Require Import Ascii.
From Verif Require Import Base Py Select Filler Classes Runtime Record Streams Spec_Streams Spec_Inst Demo DemoRt DemoCls.
Open Scope string_scope.
Open Scope list_scope.

Lemma app_nil_s : forall s : string, (s ++ "")%string = s.
Proof. induction s; cbn; congruence. Qed.
Lemma app_assoc_s : forall a b c : string, ((a ++ b) ++ c)%string = (a ++ (b ++ c))%string.
Proof. induction a; intros; cbn; congruence. Qed.

Section Pieces.
Context {obj ty W : Type} (R : Rt obj ty W) (C : @Codecs obj W).
Notation cls := (@cls obj ty W).

Fixpoint pieces_ind' (Q : @pieces W -> Prop) (H0 : Q Stop) (H1 : forall e, Q (Fail e))
  (H2 : forall s k, (forall w, Q (fst (k w))) -> Q (Yield s k)) (g : @pieces W) : Q g :=
  match g with
  | Stop => H0
  | Fail e => H1 e
  | Yield s k => H2 s k (fun w => match k w as p return Q (fst p) with (g', _) => pieces_ind' Q H0 H1 H2 g' end)
  end.

Lemma write_reliable : forall dev, reliable dev -> forall (g : @pieces W) w r w', join g w = (r, w') ->
  forall c, exists t, write_pieces dev g (w, c) = ((match r with Ok _ => Ok tt | Raise e => Raise e end), (w', (c ++ t)%string)) /\
    forall s, r = Ok s -> t = s.
Proof.
  intros dev HD g. induction g as [|e|s k IH] using pieces_ind'; intros w r w' H c.
  - injection H as <- <-. exists "". cbn. rewrite app_nil_s. split; [reflexivity|]. congruence.
  - injection H as <- <-. exists "". cbn. rewrite app_nil_s. split; [reflexivity|]. discriminate.
  - cbn [join] in H. cbn [write_pieces]. rewrite HD. specialize (IH w). destruct (k w) as [g' w1]. cbn [fst] in IH.
    unfold bind in H. destruct (join g' w1) as [r1 w2] eqn:E. destruct (IH w1 r1 w2 E (c ++ s)%string) as (t & HW & HT). rewrite HW.
    exists (s ++ t)%string. destruct r1 as [u|e]; injection H as <- <-; rewrite app_assoc_s; (split; [reflexivity|]).
    + intros s0 HE. injection HE as <-. rewrite (HT u eq_refl). reflexivity.
    + discriminate.
Qed.

Lemma write_append : forall dev, append_only dev -> forall (g : @pieces W) w c r w' c', write_pieces dev g (w, c) = (r, (w', c')) ->
  exists t, c' = (c ++ t)%string /\ (r = Ok tt -> join g w = (Ok t, w')).
Proof.
  intros dev HD g. induction g as [|e|s k IH] using pieces_ind'; intros w c r w' c' H.
  - injection H as <- <- <-. exists "". rewrite app_nil_s. split; reflexivity.
  - injection H as <- <- <-. exists "". rewrite app_nil_s. split; [reflexivity|discriminate].
  - cbn [write_pieces] in H. destruct (HD c s) as (t & E1 & E2). destruct (dev c s) as [[[]|e] c1]; cbn [fst snd] in *.
    + rewrite (E2 eq_refl) in E1. subst c1. specialize (IH w). cbn [join]. destruct (k w) as [g' w1]. cbn [fst] in IH.
      destruct (IH _ _ _ _ _ H) as (t1 & -> & HJ). exists (s ++ t1)%string. rewrite app_assoc_s. split; [reflexivity|].
      intro ER. unfold bind. rewrite (HJ ER). reflexivity.
    + injection H as <- <- <-. exists t. split; [assumption|discriminate].
Qed.

Lemma pickle_io : forall dev, append_only dev -> forall x args kw w c r w' c', to_pickle_io C dev x args kw (w, c) = (r, (w', c')) ->
  exists t, c' = (c ++ t)%string /\ (r = Ok tt -> to_pickle C x args kw w = (Ok t, w')).
Proof.
  intros dev HD x args kw w c r w' c' H. unfold to_pickle_io, bind, aside in H. unfold to_pickle, bind.
  destruct (pickle_pieces C x args kw w) as [[g|e] w1].
  - exact (write_append dev HD g w1 c r w' c' H).
  - injection H as <- <- <-. exists "". rewrite app_nil_s. split; [reflexivity|discriminate].
Qed.

Lemma write_all_kept : forall dev, append_only dev -> forall xs args kw w c r w' c', write_all C dev xs args kw (w, c) = (r, (w', c')) ->
  exists t, c' = (c ++ t)%string.
Proof.
  intros dev HD xs args kw. induction xs as [|x xs IH]; intros w c r w' c' H.
  - injection H as <- <- <-. exists "". rewrite app_nil_s. reflexivity.
  - cbn [write_all] in H. unfold bind in H. destruct (to_pickle_io C dev x args kw (w, c)) as [r1 [w1 c1]] eqn:E.
    destruct (pickle_io dev HD _ _ _ _ _ _ _ _ E) as (t & -> & _). destruct r1 as [[]|e].
    + destruct (IH _ _ _ _ _ H) as (t2 & ->). exists (t ++ t2)%string. apply app_assoc_s.
    + injection H as <- <- <-. exists t. reflexivity.
Qed.

Fixpoint joined (l : list string) : string := match l with [] => "" | b :: r => (b ++ joined r)%string end.

(** each of the texts is the pickle of something *)
Definition pickles dargs dkw (bs : list string) : Prop := Forall (fun b => exists x w w', to_pickle C x dargs dkw w = (Ok b, w')) bs.

Lemma write_all_ok : forall dev, append_only dev -> forall xs args kw w c w' c', write_all C dev xs args kw (w, c) = (Ok tt, (w', c')) ->
  exists bs, mapM (fun x => to_pickle C x args kw) xs w = (Ok bs, w') /\ c' = (c ++ joined bs)%string /\ pickles args kw bs.
Proof.
  intros dev HD xs args kw. induction xs as [|x xs IH]; intros w c w' c' H.
  - injection H as <- <-. exists []. cbn. rewrite app_nil_s. repeat split. constructor.
  - cbn [write_all] in H. unfold bind in H. destruct (to_pickle_io C dev x args kw (w, c)) as [r1 [w1 c1]] eqn:E.
    destruct (pickle_io dev HD _ _ _ _ _ _ _ _ E) as (t & -> & HT). destruct r1 as [[]|e]; [|discriminate].
    specialize (HT eq_refl). destruct (IH _ _ _ _ H) as (bs & HM & -> & HP). exists (t :: bs). cbn [mapM joined]. unfold bind.
    rewrite HT, HM. split; [reflexivity|]. split; [apply app_assoc_s|]. constructor; [do 3 eexists; exact HT|exact HP].
Qed.

Lemma read_back : forall dargs dkw fuel c args kw, self_delimiting C dargs dkw args kw -> forall bs, pickles dargs dkw bs ->
  forall junk w r w', mapM (fun b => from_pickle R C fuel c b args kw) bs w = (r, w') ->
  exists rest, read_all R C fuel (List.length bs) c args kw (w, (joined bs ++ junk)%string) = (r, (w', rest)) /\ (forall l, r = Ok l -> rest = junk).
Proof.
  intros dargs dkw fuel c args kw HS bs HP. induction HP as [|b bs (x & w0 & w0' & HX) _ IH]; intros junk w r w' H.
  - injection H as <- <-. exists junk. split; reflexivity.
  - cbn [mapM List.length read_all joined] in *. unfold bind, from_pickle_io, bind in *. unfold from_pickle in H.
    destruct (pickle_parse C args kw (w, b)) as [r1 [w1 e1]] eqn:E1. cbn [fst] in H.
    destruct (HS x w0 b w0' HX (joined bs ++ junk)%string w r1 w1 e1 E1) as (e2 & E2 & HE). rewrite app_assoc_s, E2.
    destruct r1 as [v|e].
    + rewrite (HE v eq_refl). unfold aside. destruct (from_pickled R fuel c v w1) as [[y|e] w2].
      * destruct (mapM (fun b0 => from_pickle R C fuel c b0 args kw) bs w2) as [r3 w3] eqn:E3.
        destruct (IH junk w2 r3 w3 E3) as (rest & HR & HJ). rewrite HR. unfold ret in *. unfold from_pickle in E3. rewrite E3 in H. destruct r3 as [l|e]; injection H as <- <-.
        -- exists rest. split; [reflexivity|]. intros _ _. exact (HJ l eq_refl).
        -- exists rest. split; [reflexivity|discriminate].
      * injection H as <- <-. eexists. split; [reflexivity|discriminate].
    + injection H as <- <-. eexists. split; [reflexivity|discriminate].
Qed.
End Pieces.

Lemma c113_json_proof : forall {obj ty W} (R : Rt obj ty W) ctx (C : @Codecs obj W) dev x a s args kw w r w',
  reliable dev -> to_json_text R ctx C x a s args kw w = (r, w') ->
  forall c, exists c', to_json_io R ctx C dev x a s args kw (w, c) =
      ((match r with Ok _ => Ok tt | Raise e => Raise e end), (w', c')) /\
    forall t, r = Ok t -> c' = (c ++ t)%string.
Proof.
  intros obj ty W R ctx C dev x a s args kw w r w' HD H c. unfold to_json_text, bind in H. unfold to_json_io, bind, aside.
  destruct (to_dict R ctx x a s w) as [[d|e] w1]; [|injection H as <- <-; eexists; split; [reflexivity|discriminate]].
  destruct (json_pieces C d args kw w1) as [[g|e] w2]; [|injection H as <- <-; eexists; split; [reflexivity|discriminate]].
  destruct (write_reliable dev HD g w2 r w' H c) as (t & HW & HT). exists (c ++ t)%string. split; [exact HW|].
  intros u HU. rewrite (HT u HU). reflexivity.
Qed.

Lemma c113_pickle_proof : forall {obj W} (C : @Codecs obj W) dev x args kw w r w',
  reliable dev -> to_pickle C x args kw w = (r, w') ->
  forall c, exists c', to_pickle_io C dev x args kw (w, c) =
      ((match r with Ok _ => Ok tt | Raise e => Raise e end), (w', c')) /\
    forall t, r = Ok t -> c' = (c ++ t)%string.
Proof.
  intros obj W C dev x args kw w r w' HD H c. unfold to_pickle, bind in H. unfold to_pickle_io, bind, aside.
  destruct (pickle_pieces C x args kw w) as [[g|e] w2]; [|injection H as <- <-; eexists; split; [reflexivity|discriminate]].
  destruct (write_reliable dev HD g w2 r w' H c) as (t & HW & HT). exists (c ++ t)%string. split; [exact HW|].
  intros u HU. rewrite (HT u HU). reflexivity.
Qed.

Lemma c113_as_assumed_proof : forall {obj ty W} (R : Rt obj ty W) ctx (C : @Codecs obj W) fuel c x a s v w,
  (forall d w, json_dumps R d w = (let* g := json_pieces C d [] [] in let* t := join g in ret (text C t)) w) ->
  (forall v w, json_loads R v w = json_parse C v [] w) ->
  to_json R ctx x a s w = (let* t := to_json_text R ctx C x a s [] [] in ret (text C t)) w /\
  from_json R fuel c s v w = from_json_text R C fuel c s v [] w.
Proof.
  intros obj ty W R ctx C fuel c x a s v w H1 H2. split.
  - unfold to_json, to_json_text, bind. destruct (to_dict R ctx x a s w) as [[d|e] w1]; [|reflexivity]. rewrite H1. unfold bind.
    destruct (json_pieces C d [] [] w1) as [[g|e] w2]; reflexivity.
  - unfold from_json, from_json_with, from_json_text, bind. rewrite H2. reflexivity.
Qed.

Lemma c114_kept_partial_proof : forall {obj ty W} (R : Rt obj ty W) ctx (C : @Codecs obj W) dev x a s args kw w c,
  append_only dev ->
  (exists t, snd (snd (to_json_io R ctx C dev x a s args kw (w, c))) = (c ++ t)%string) /\
  (exists t, snd (snd (to_pickle_io C dev x args kw (w, c))) = (c ++ t)%string).
Proof.
  intros obj ty W R ctx C dev x a s args kw w c HD. split.
  - destruct (to_json_io R ctx C dev x a s args kw (w, c)) as [r [w' c']] eqn:H. unfold to_json_io, bind, aside in H. cbn [snd].
    destruct (to_dict R ctx x a s w) as [[d|e] w1]; [|injection H as <- <- <-; exists ""; rewrite app_nil_s; reflexivity].
    destruct (json_pieces C d args kw w1) as [[g|e] w2]; [|injection H as <- <- <-; exists ""; rewrite app_nil_s; reflexivity].
    destruct (write_append dev HD g _ _ _ _ _ H) as (t & E & _). exists t. exact E.
  - destruct (to_pickle_io C dev x args kw (w, c)) as [r [w' c']] eqn:H.
    destruct (pickle_io C dev HD _ _ _ _ _ _ _ _ H) as (t & E & _). exists t. exact E.
Qed.

Lemma c115_json_proof : forall {obj ty W} (R : Rt obj ty W) ctx (C : @Codecs obj W) dev x a s args kw w w' contents,
  append_only dev -> to_json_io R ctx C dev x a s args kw (w, "") = (Ok tt, (w', contents)) ->
  exists t, to_json_text R ctx C x a s args kw w = (Ok t, w') /\
    forall fuel c s' kw' v r v', from_json_text R C fuel c s' (text C t) kw' v = (r, v') ->
      from_json_io R C fuel c s' kw' (v, contents) = (r, (v', "")).
Proof.
  intros obj ty W R ctx C dev x a s args kw w w' contents HD H. unfold to_json_io, bind, aside in H.
  unfold to_json_text, bind.
  destruct (to_dict R ctx x a s w) as [[d|e] w1]; [|discriminate].
  destruct (json_pieces C d args kw w1) as [[g|e] w2]; [|discriminate].
  destruct (write_append dev HD g _ _ _ _ _ H) as (t & E & HJ). cbn in E. subst contents. exists t. split; [exact (HJ eq_refl)|].
  intros fuel c s' kw' v r v' HF. unfold from_json_io, from_json_text, read_rest, bind, aside in *.
  destruct (json_parse C (text C t) kw' v) as [[y|e] v1]; [|congruence].
  destruct (from_loaded R fuel c s' y v1) as [r2 v2]. congruence.
Qed.

Lemma c115_pickles_proof : forall {obj ty W} (R : Rt obj ty W) (C : @Codecs obj W) dev dargs dkw args kw xs w w' contents,
  append_only dev -> self_delimiting C dargs dkw args kw ->
  write_all C dev xs dargs dkw (w, "") = (Ok tt, (w', contents)) ->
  exists bs, mapM (fun x => to_pickle C x dargs dkw) xs w = (Ok bs, w') /\
    forall fuel c v r v', mapM (fun b => from_pickle R C fuel c b args kw) bs v = (r, v') ->
      exists rest, read_all R C fuel (List.length xs) c args kw (v, contents) = (r, (v', rest)) /\
        forall l, r = Ok l -> rest = "".
Proof.
  intros obj ty W R C dev dargs dkw args kw xs w w' contents HD HS H.
  destruct (write_all_ok C dev HD _ _ _ _ _ _ _ H) as (bs & HM & -> & HP). exists bs. split; [exact HM|].
  intros fuel c v r v' HF. destruct (read_back R C dargs dkw fuel c args kw HS bs HP "" v r v' HF) as (rest & HR & HJ).
  rewrite app_nil_s in HR. exists rest. cbn [append]. split; [|exact HJ].
  assert (HL : List.length bs = List.length xs).
  { clear - HM. revert w bs w' HM. induction xs as [|x xs IH]; intros w bs w' HM; cbn [mapM] in HM.
    - injection HM as <- <-. reflexivity.
    - unfold bind in HM. destruct (to_pickle C x dargs dkw w) as [[b|e] w1]; [|discriminate].
      destruct (mapM (fun x => to_pickle C x dargs dkw) xs w1) as [[l|e] w2] eqn:E; [|discriminate]. injection HM as <- <-. cbn.
      f_equal. exact (IH _ _ _ E). }
  rewrite <- HL. exact HR.
Qed.

Lemma c115_crash_proof : forall {obj ty W} (R : Rt obj ty W) (C : @Codecs obj W) dev dargs dkw args kw xs ys w w1 c1 r' w2 c2,
  append_only dev -> self_delimiting C dargs dkw args kw ->
  write_all C dev xs dargs dkw (w, "") = (Ok tt, (w1, c1)) ->
  write_all C dev ys dargs dkw (w1, c1) = (r', (w2, c2)) ->
  exists bs, mapM (fun x => to_pickle C x dargs dkw) xs w = (Ok bs, w1) /\
    forall fuel c v l v', mapM (fun b => from_pickle R C fuel c b args kw) bs v = (Ok l, v') ->
      exists rest, read_all R C fuel (List.length bs) c args kw (v, c2) = (Ok l, (v', rest)).
Proof.
  intros obj ty W R C dev dargs dkw args kw xs ys w w1 c1 r' w2 c2 HD HS H1 H2.
  destruct (write_all_ok C dev HD _ _ _ _ _ _ _ H1) as (bs & HM & -> & HP). exists bs. split; [exact HM|].
  destruct (write_all_kept C dev HD _ _ _ _ _ _ _ _ H2) as (junk & ->). cbn [append].
  intros fuel c v l v' HF. destruct (read_back R C dargs dkw fuel c args kw HS bs HP junk v _ v' HF) as (rest & HR & _).
  exists rest. exact HR.
Qed.

(** a demonstration: json writes "{" and then the values one after the other, and refuses None;
    a pickle is one character, for the position of a record on the heap *)
Fixpoint value_pieces (l : list dobj) : @pieces rstate :=
  match l with
  | [] => Yield "}" (fun w => (Stop, w))
  | DInt _ :: r => Yield "1" (fun w => (value_pieces r, w))
  | _ :: _ => Fail (mkexc TypeError "is not JSON serializable")
  end.
Definition codecs0 : @Codecs dobj rstate := {|
  text := DStr;
  json_pieces := fun d _ _ => ret (Yield "{" (fun w => (value_pieces (dvalues d), w)));
  json_parse := fun v kw => if negb (Nat.eqb (List.length kw) 0) then raise (mkexc TypeError "unexpected keyword argument") else if dis v (DStr "{1}") then ret (mapping [("x", DInt 1)]) else raise (mkexc ValueError "JSONDecodeError");
  pickle_pieces := fun x _ _ => match x with
                                | DRef _ n => ret (Yield (String (Ascii.ascii_of_nat n) "") (fun w => (Yield "." (fun w => (Stop, w)), w)))
                                | _ => raise (mkexc TypeError "cannot pickle")
                                end;
  pickle_parse := fun _ _ wc => match snd wc with
                                | String a (String "."%char r) => (Ok (DRef (TRec 0) (Ascii.nat_of_ascii a)), (fst wc, r))
                                | _ => (Raise (mkexc ValueError "EOFError"), (fst wc, ""))
                                end
|}.
Definition memory : device := fun c s => (Ok tt, (c ++ s)%string).
(** a disk of 5 characters *)
Definition small_disk : device := fun c s => if Nat.leb (String.length (c ++ s)) 5 then (Ok tt, (c ++ s)%string) else (Raise (mkexc (UserExc 7 CtorStr) "No space left on device"), c).
Definition sclass (n : nat) : @cls dobj dty rstate := made_of (rdecl n true false None SHollow [("x", (an TInt, NoDefault))] [] no_post).
Definition sctx (t : dty) : option (@cls dobj dty rstate) := if dtyb t (TRec 0) then Some (sclass 0) else None.
Definition sstate : rstate := RState [] [Inst (TRec 0) [("x", DInt 1)] SNone; Inst (TRec 0) [("x", DNone)] SNone] [].

(** the encoder gives out the pieces [ps] and then raises [e] *)
Inductive fails_after {W} : @pieces W -> W -> list string -> exc -> W -> Prop :=
| fails_now e w : fails_after (Fail e) w [] e w
| fails_later s k ps e w g w1 w2 : k w = (g, w1) -> fails_after g w1 ps e w2 -> fails_after (Yield s k) w (s :: ps) e w2.

Lemma c114_failed_refuted_proof : forall {obj ty W} (R : Rt obj ty W) ctx (C : @Codecs obj W) dev x a s args kw w d w1 g w2 ps e w3 contents,
  reliable dev -> to_dict R ctx x a s w = (Ok d, w1) -> json_pieces C d args kw w1 = (Ok g, w2) -> fails_after g w2 ps e w3 ->
  to_json_text R ctx C x a s args kw w = (Raise e, w3) /\
  to_json_io R ctx C dev x a s args kw (w, contents) = (Raise e, (w3, (contents ++ String.concat "" ps)%string)).
Proof.
  intros obj ty W R ctx C dev x a s args kw w d w1 g w2 ps e w3 contents HD H1 H2 HF. split.
  - unfold to_json_text, bind. rewrite H1, H2. clear - HF. induction HF as [e w|s k ps e w g w1 w2 HK HF IH]; cbn; [reflexivity|].
    rewrite HK. unfold bind. rewrite IH. reflexivity.
  - unfold to_json_io, aside, bind. rewrite H1, H2. clear - HF HD. revert contents.
    induction HF as [e w|s k ps e w g w1 w2 HK HF IH]; intros c; cbn [write_pieces]; [rewrite app_nil_s; reflexivity|].
    rewrite (HD c s), HK, IH.
    assert (E : (String.concat "" (s :: ps) = s ++ String.concat "" ps)%string) by (destruct ps; cbn; [rewrite app_nil_s|]; reflexivity).
    rewrite E, <- app_assoc_s. reflexivity.
Qed.

Lemma c116_keywords_refuted_proof : forall {obj ty W} (R : Rt obj ty W) (C : @Codecs obj W) fuel c s v k y w,
  (forall v w, exists e, json_parse C v [(k, y)] w = (Raise e, w) /\ exc_cls e = TypeError) ->
  exists e, from_json_text R C fuel c s v [(k, y)] w = (Raise e, w) /\ exc_cls e = TypeError.
Proof.
  intros obj ty W R C fuel c s v k y w H. destruct (H v w) as (e & E & HE). exists e. unfold from_json_text, bind. rewrite E. auto.
Qed.
