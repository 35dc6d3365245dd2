(** Props_Streams.v -- property theorems: exports to files and imports from them
    Each theorem is closed by the lemma of the same statement in Streams_main.v; the examples
    show that concrete, non-trivial cases meet the hypotheses. *)

From Coq Require Import Ascii.
From Verif Require Import Base Py Select Filler Classes Runtime Record Streams Spec_Streams Spec_Inst Demo DemoRt DemoCls.
Open Scope string_scope.
Open Scope list_scope.

From Verif Require Import Streams_main.

(** C113: to_json(io=f) writes to f what to_json() returns, or raises what it raises; the
    state is the same afterwards. *)
Theorem c113_json : forall {obj ty W} (R : Rt obj ty W) ctx (C : @Codecs obj W) dev x a s args kw w r w',
  reliable dev -> to_json_text R ctx C x a s args kw w = (r, w') ->
  forall c, exists c', to_json_io R ctx C dev x a s args kw (w, c) =
      ((match r with Ok _ => Ok tt | Raise e => Raise e end), (w', c')) /\
    forall t, r = Ok t -> c' = (c ++ t)%string.
Proof. exact (@c113_json_proof). Qed.
Print Assumptions c113_json.

(** C113 for to_pickle *)
Theorem c113_pickle : forall {obj W} (C : @Codecs obj W) dev x args kw w r w',
  reliable dev -> to_pickle C x args kw w = (r, w') ->
  forall c, exists c', to_pickle_io C dev x args kw (w, c) =
      ((match r with Ok _ => Ok tt | Raise e => Raise e end), (w', c')) /\
    forall t, r = Ok t -> c' = (c ++ t)%string.
Proof. exact (@c113_pickle_proof). Qed.
Print Assumptions c113_pickle.

(** to_json() and from_json without arguments are those of Record.v, if json.dumps joins the
    pieces. *)
Theorem c113_as_assumed : forall {obj ty W} (R : Rt obj ty W) ctx (C : @Codecs obj W) fuel c x a s v w,
  (forall d w, json_dumps R d w = (let* g := json_pieces C d [] [] in let* t := join g in ret (text C t)) w) ->
  (forall v w, json_loads R v w = json_parse C v [] w) ->
  to_json R ctx x a s w = (let* t := to_json_text R ctx C x a s [] [] in ret (text C t)) w /\
  from_json R fuel c s v w = from_json_text R C fuel c s v [] w.
Proof. exact (@c113_as_assumed_proof). Qed.
Print Assumptions c113_as_assumed.

(** C114, what does hold: whatever the outcome, and whenever writes fail, what the file
    contained before is still there. *)
Theorem c114_kept_partial : forall {obj ty W} (R : Rt obj ty W) ctx (C : @Codecs obj W) dev x a s args kw w c,
  append_only dev ->
  (exists t, snd (snd (to_json_io R ctx C dev x a s args kw (w, c))) = (c ++ t)%string) /\
  (exists t, snd (snd (to_pickle_io C dev x args kw (w, c))) = (c ++ t)%string).
Proof. exact (@c114_kept_partial_proof). Qed.
Print Assumptions c114_kept_partial.

(** C115: from_json_io reads from what to_json(io=f) wrote what from_json reads from what
    to_json() returns; nothing is left to read. *)
Theorem c115_json : forall {obj ty W} (R : Rt obj ty W) ctx (C : @Codecs obj W) dev x a s args kw w w' contents,
  append_only dev -> to_json_io R ctx C dev x a s args kw (w, "") = (Ok tt, (w', contents)) ->
  exists t, to_json_text R ctx C x a s args kw w = (Ok t, w') /\
    forall fuel c s' kw' v r v', from_json_text R C fuel c s' (text C t) kw' v = (r, v') ->
      from_json_io R C fuel c s' kw' (v, contents) = (r, (v', "")).
Proof. exact (@c115_json_proof). Qed.
Print Assumptions c115_json.

(** C115: any number of records written to a file one after the other are read back in this
    order; each reading gives what from_pickle makes of what to_pickle() returns. *)
Theorem c115_pickles : forall {obj ty W} (R : Rt obj ty W) (C : @Codecs obj W) dev dargs dkw args kw xs w w' contents,
  append_only dev -> self_delimiting C dargs dkw args kw ->
  write_all C dev xs dargs dkw (w, "") = (Ok tt, (w', contents)) ->
  exists bs, mapM (fun x => to_pickle C x dargs dkw) xs w = (Ok bs, w') /\
    forall fuel c v r v', mapM (fun b => from_pickle R C fuel c b args kw) bs v = (r, v') ->
      exists rest, read_all R C fuel (List.length xs) c args kw (v, contents) = (r, (v', rest)) /\
        forall l, r = Ok l -> rest = "".
Proof. exact (@c115_pickles_proof). Qed.
Print Assumptions c115_pickles.

(** C115 at every crash point: once records have been written, they can be read back, whatever
    happens to the records that are written after them. *)
Theorem c115_crash : forall {obj ty W} (R : Rt obj ty W) (C : @Codecs obj W) dev dargs dkw args kw xs ys w w1 c1 r' w2 c2,
  append_only dev -> self_delimiting C dargs dkw args kw ->
  write_all C dev xs dargs dkw (w, "") = (Ok tt, (w1, c1)) ->
  write_all C dev ys dargs dkw (w1, c1) = (r', (w2, c2)) ->
  exists bs, mapM (fun x => to_pickle C x dargs dkw) xs w = (Ok bs, w1) /\
    forall fuel c v l v', mapM (fun b => from_pickle R C fuel c b args kw) bs v = (Ok l, v') ->
      exists rest, read_all R C fuel (List.length bs) c args kw (v, c2) = (Ok l, (v', rest)).
Proof. exact (@c115_crash_proof). Qed.
Print Assumptions c115_crash.

(** C114 does not hold: whenever the encoder raises after it gave out some pieces of the text,
    to_json(io=f) raises, as to_json() does, and leaves these pieces in the file. *)
Theorem c114_failed_refuted : forall {obj ty W} (R : Rt obj ty W) ctx (C : @Codecs obj W) dev x a s args kw w d w1 g w2 ps e w3 contents,
  reliable dev -> to_dict R ctx x a s w = (Ok d, w1) -> json_pieces C d args kw w1 = (Ok g, w2) -> fails_after g w2 ps e w3 ->
  to_json_text R ctx C x a s args kw w = (Raise e, w3) /\
  to_json_io R ctx C dev x a s args kw (w, contents) = (Raise e, (w3, (contents ++ String.concat "" ps)%string)).
Proof. exact (@c114_failed_refuted_proof). Qed.
Print Assumptions c114_failed_refuted.

(** json.dumps of a record with a value it does not know *)
Example c114_failed_case :
  exists dev c x w e, reliable dev /\ make_class rt0 (rdecl 0 true false None SHollow [("x", (an TInt, NoDefault))] [] no_post) = Ok c /\
    class_of (demo_rt 0) (fun t => if dtyb t (TRec 0) then Some c else None) x w = Some c /\
    to_json_text (demo_rt 0) sctx codecs0 x no_args sel_empty [] [] w = (Raise e, w) /\
    to_json_io (demo_rt 0) sctx codecs0 dev x no_args sel_empty [] [] (w, "") = (Raise e, (w, "{")).
Proof.
  exists memory, (sclass 0), (DRef (TRec 0) 1), sstate. eexists. split; [intros c s; reflexivity|].
  split; [reflexivity|]. split; [reflexivity|]. split; reflexivity.
Qed.

(** C116 does not hold: keywords given to from_json are not values of fields; json.loads gets
    them, which raises. *)
Theorem c116_keywords_refuted : forall {obj ty W} (R : Rt obj ty W) (C : @Codecs obj W) fuel c s v k y w,
  (forall v w, exists e, json_parse C v [(k, y)] w = (Raise e, w) /\ exc_cls e = TypeError) ->
  exists e, from_json_text R C fuel c s v [(k, y)] w = (Raise e, w) /\ exc_cls e = TypeError.
Proof. exact (@c116_keywords_refuted_proof). Qed.
Print Assumptions c116_keywords_refuted.

Example c113_case :
  reliable memory /\ to_json_text (demo_rt 0) sctx codecs0 (DRef (TRec 0) 0) no_args sel_empty [] [] sstate = (Ok "{1}", sstate) /\
  to_json_io (demo_rt 0) sctx codecs0 memory (DRef (TRec 0) 0) no_args sel_empty [] [] (sstate, "x") = (Ok tt, (sstate, "x{1}")).
Proof. repeat split. Qed.
Lemma small_disk_ok : append_only small_disk.
Proof.
  intros c s. unfold small_disk. destruct (Nat.leb (String.length (c ++ s)) 5); [exists s; split; reflexivity|].
  exists "". split; [|discriminate]. cbn [snd]. clear. induction c; cbn; congruence.
Qed.
Lemma codecs0_ok : forall dargs dkw args kw, self_delimiting codecs0 dargs dkw args kw.
Proof.
  intros dargs dkw args kw x w b w' H rest w1 r w2 e HP. destruct x; try discriminate H. cbn in H. injection H as <- <-.
  cbn in HP |- *. injection HP as <- <- <-. exists rest. split; reflexivity.
Qed.
(** two pickles fit on the small disk, a third does not; the two can still be read *)
Example c115_case :
  let xs := [DRef (TRec 0) 0; DRef (TRec 0) 1] in
  write_all codecs0 small_disk xs [] [] (sstate, "") =
    (Ok tt, (sstate, String (Ascii.ascii_of_nat 0) (String "."%char (String (Ascii.ascii_of_nat 1) ".")))) /\
  is_ok (fst (write_all codecs0 small_disk (xs ++ xs) [] [] (sstate, ""))) = false /\
  fst (read_all (demo_rt 0) codecs0 1 2 (sclass 0) [] [] (snd (write_all codecs0 small_disk (xs ++ xs) [] [] (sstate, "")))) = Ok xs.
Proof. repeat split. Qed.
Example c115_json_case : exists w c,
  to_json_io (demo_rt 0) sctx codecs0 small_disk (DRef (TRec 0) 0) no_args sel_empty [] [] (sstate, "") = (Ok tt, (w, c)) /\
  fst (from_json_io (demo_rt 0) codecs0 1 (sclass 0) sel_empty [] (w, c)) = Ok (DRef (TRec 0) 2).
Proof. do 2 eexists. split; reflexivity. Qed.

(** the codec of the demonstration refuses all keywords; the class has the field *)
Example c116_case : (forall v w, exists e, json_parse codecs0 v [("x", DInt 1)] w = (Raise e, w) /\ exc_cls e = TypeError) /\
  dmem "x" (c_fields (sclass 0)) = true.
Proof. split; [intros v w; eexists; split; reflexivity|reflexivity]. Qed.
