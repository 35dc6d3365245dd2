(** Props_Extras.v -- property theorems: the modules of records.extras (records/extras.py)
    Each theorem is closed by the lemma of the same statement in Extras_main.v; the examples
    show that concrete, non-trivial cases meet the hypotheses. *)

From Verif Require Import Base Py Select Filler Spec_Filler Classes Spec_Classes Runtime Record Spec_Record Spec_Hist Tokens Streams Extras Spec_Extras Demo DemoRt DemoCls.
From Verif Require Record_inv Hist_proofs Hist_main.
Open Scope string_scope.
Open Scope list_scope.

From Verif Require Import Extras_main.

(** C133: in every history, every call of a function of a json or pickle module that the library
    makes is to the module that was put into records.extras last, whatever else the program does,
    and whenever the classes and records were made. *)
Theorem c133_history : forall {obj ty W} (E : @Extras obj W) (R : Rt obj ty W) ctx used,
  puts E used -> apart E R used -> modules_note E used -> program_obeys R (keeping (uses_current E used)) ctx ->
  forall l w, Forall (event_allowed E ctx used) l ->
  exists us, used (run E R ctx l w) = used w ++ us /\ follows (extras_json E w) (extras_pickle E w) l us.
Proof. exact (@c133_history_proof). Qed.
Print Assumptions c133_history.

(** C133 for JSON: after any history, exports to text and files encode what to_dict gives with
    the module put last, and imports decode with it. *)
Theorem c133_json : forall {obj ty W} (E : @Extras obj W) (R : Rt obj ty W) ctx used text_obj,
  puts E used -> apart E R used -> modules_note E used -> program_obeys R (keeping (uses_current E used)) ctx ->
  forall l w, Forall (event_allowed E ctx used) l ->
  let w' := run E R ctx l w in
  let R' := with_extras E R in
  let C := codecs_of_extras E text_obj in
  let m := json_modules E (last_json l (extras_json E w)) in
  (forall x a s d w1, to_dict R' ctx x a s w' = (Ok d, w1) ->
     to_json R' ctx x a s w' = j_dumps m d w1 /\
     forall args kw,
       to_json_text R' ctx C x a s args kw w' = (let* g := j_pieces m d args kw in join g) w1 /\
       forall dev c, to_json_io R' ctx C dev x a s args kw (w', c) = (let* g := aside (j_pieces m d args kw) in write_pieces dev g) (w1, c)) /\
  (forall n c s v, from_json R' n c s v w' = (let* x := j_loads m v in from_loaded R' n c s x) w') /\
  (forall n c s v kw, from_json_text R' C n c s v kw w' = (let* x := j_parse m v kw in from_loaded R' n c s x) w') /\
  (forall n c s kw t, from_json_io R' C n c s kw (w', t) = (let* x := aside (j_parse m (text_obj t) kw) in aside (from_loaded R' n c s x)) (w', "")).
Proof. exact (@c133_json_proof). Qed.
Print Assumptions c133_json.

(** C133 for pickle *)
Theorem c133_pickle : forall {obj ty W} (E : @Extras obj W) (R : Rt obj ty W) ctx used text_obj,
  puts E used -> apart E R used -> modules_note E used -> program_obeys R (keeping (uses_current E used)) ctx ->
  forall l w, Forall (event_allowed E ctx used) l ->
  let w' := run E R ctx l w in
  let R' := with_extras E R in
  let C := codecs_of_extras E text_obj in
  let m := pickle_modules E (last_pickle l (extras_pickle E w)) in
  (forall x args kw, to_pickle C x args kw w' = (let* g := p_pieces m x args kw in join g) w') /\
  (forall x args kw dev c, to_pickle_io C dev x args kw (w', c) = (let* g := aside (p_pieces m x args kw) in write_pieces dev g) (w', c)) /\
  (forall n c b args kw v wc, p_parse m args kw (w', b) = (Ok v, wc) -> from_pickle R' C n c b args kw w' = from_pickled R' n c v (fst wc)) /\
  (forall n c b args kw e wc, p_parse m args kw (w', b) = (Raise e, wc) -> from_pickle R' C n c b args kw w' = (Raise e, fst wc)) /\
  (forall n c b args kw, from_pickle_io R' C n c args kw (w', b) = (let* v := p_parse m args kw in aside (from_pickled R' n c v)) (w', b)).
Proof. exact (@c133_pickle_proof). Qed.
Print Assumptions c133_pickle.

(** C133 for re: a FullMatch asks the pattern that was compiled by the module that was in
    records.extras when it was made, also after others were put there. *)
Theorem c133_pattern : forall {obj ty W} (E : @Extras obj W) (X : Ops obj ty W) pattern a w check w1,
  new_full_match E X pattern a w = (Ok check, w1) ->
  exists fullmatch, re_compile (re_modules E (extras_re E w)) pattern w = (Ok fullmatch, w1) /\
    forall v w2,
      (forall w3, fullmatch v w2 = (Ok true, w3) -> check v w2 = (Ok v, w3)) /\
      (forall w3 s, a = AssertArgs (ErrText s) WarnFalse -> fullmatch v w2 = (Ok false, w3) -> check v w2 = (Raise (Exc ValueError s None), w3)).
Proof. exact (@c133_pattern_proof). Qed.
Print Assumptions c133_pattern.

(** a run time where records.extras and the calls are in the log: [DCls m]: json was set to m,
    [DRef TNone m]: pickle was set to m, [DFun m] and [DRef TInt m]: calls of them *)
Definition note_log (x : dobj) (w : rstate) : rstate := RState (rs_lit w) (rs_heap w) (rs_log w ++ [x]).
Definition log_extras : @Extras dobj rstate := {|
  json_modules := fun m => {|
    j_loads := fun x w => (Ok (mapping [("x", DInt (Z.of_nat m))]), note_log (DFun m) w);
    j_dumps := fun d w => (Ok (DStr "{}"), note_log (DFun m) w);
    j_pieces := fun d args kw w => (Ok (Yield "{}" (fun w => (Stop, w))), note_log (DFun m) w);
    j_parse := fun x kw w => (Ok (mapping [("x", DInt (Z.of_nat m))]), note_log (DFun m) w) |};
  pickle_modules := fun m => {|
    p_values := fun l w => (Ok l, note_log (DRef TInt m) w);
    p_pieces := fun x args kw w => (Ok (Yield "p" (fun w => (Stop, w))), note_log (DRef TInt m) w);
    p_parse := fun args kw wc => (Ok (DInt (Z.of_nat m)), (note_log (DRef TInt m) (fst wc), snd wc)) |};
  re_modules := fun m => {| re_compile := fun p w => (Ok (fun v w => (Ok (Nat.eqb m 0), w)), w) |};
  extras_json := fun w => fold_left (fun j x => match x with DCls m => m | _ => j end) (rs_log w) 0;
  extras_pickle := fun w => fold_left (fun j x => match x with DRef TNone m => m | _ => j end) (rs_log w) 0;
  extras_re := fun w => 0;
  put_json := fun m => note_log (DCls m);
  put_pickle := fun m => note_log (DRef TNone m);
  put_re := fun m w => w
|}.
Definition logged_uses (w : rstate) : list use :=
  flat_map (fun x => match x with DFun m => [UJson m] | DRef TInt m => [UPickle m] | _ => [] end) (rs_log w).
Definition plain_decl := rdecl 0 true false (Some true) SCheck [("x", (AHint (HTy TInt) [], NoDefault))] [] no_post.
Definition plain_ctx (t : dty) : option (@cls dobj dty rstate) := if dtyb t (TRec 0) then Some (made_of plain_decl) else None.
Example c133_case :
  let E := log_extras in
  let c := made_of plain_decl in
  let l := [PutJson 3; Do (AFromJson 1 c sel_empty (DStr "")); Do (AToJson (DRef (TRec 0) 0) no_args sel_empty); PutPickle 8; PutJson 4;
            Do (AHash (DRef (TRec 0) 0)); Do (AParse 1 c (DStr "")); Do (ACall 1 c (Some (DStr "")) [])] in
  puts E logged_uses /\ apart E (demo_rt 0) logged_uses /\ modules_note E logged_uses /\
  program_obeys (demo_rt 0) (keeping (uses_current E logged_uses)) plain_ctx /\
  Forall (event_allowed E plain_ctx logged_uses) l /\
  logged_uses (run E (demo_rt 0) plain_ctx l (RState [] [Inst (TRec 0) [("x", DInt 5)] SNone] [])) = [UJson 3; UJson 3; UJson 4; UJson 4].
Proof.
  cbv zeta.
  assert (U : forall w x, logged_uses (note_log x w) = logged_uses w ++ match x with DFun m => [UJson m] | DRef TInt m => [UPickle m] | _ => [] end).
  { intros w x. unfold logged_uses, note_log. cbn [rs_log]. rewrite flat_map_app. cbn [flat_map]. rewrite app_nil_r. reflexivity. }
  assert (J : forall w x, extras_json log_extras (note_log x w) = match x with DCls m => m | _ => extras_json log_extras w end).
  { intros w x. cbn. rewrite fold_left_app. reflexivity. }
  assert (P : forall w x, extras_pickle log_extras (note_log x w) = match x with DRef TNone m => m | _ => extras_pickle log_extras w end).
  { intros w x. cbn. rewrite fold_left_app. reflexivity. }
  assert (N : forall A (r : outcome A) u x, (forall w, logged_uses (note_log x w) = logged_uses w ++ [u]) ->
            (forall w, extras_json log_extras (note_log x w) = extras_json log_extras w) -> (forall w, extras_pickle log_extras (note_log x w) = extras_pickle log_extras w) ->
            notes log_extras logged_uses u (fun w => (r, note_log x w))).
  { intros A r u x H1 H2 H3 w. exists []. split; [apply H1|]. intros O. split; [apply H2|]. split; [apply H3|]. exists [u]. split; [apply H1|apply Forall_cons; [exact O|apply Forall_nil]]. }
  split; [|split; [|split; [|split; [|split]]]].
  - intros m w. cbn [put_json put_pickle log_extras]. rewrite !U, !J, !P, !app_nil_r. repeat split.
  - split; intros; repeat split.
  - split; [|split]; intros; apply N; intros; rewrite ?U, ?J, ?P; reflexivity.
  - split; [apply Hist_main.demo_obey; intros; apply Extras_main.current_refl|].
    intros t c H. unfold plain_ctx, dtyb in H. destruct (dty_eq t (TRec 0)) as [->|]; [|discriminate]. injection H as <-. split; [reflexivity|].
    apply (Spec_Hist.class_obeys_made _ _ plain_decl); [reflexivity|repeat constructor; simpl; tauto| |intros b [H|[]]; discriminate].
    constructor.
    + intros k a t [H|[]] HT. injection H as <- <-. destruct HT.
    + intros k key t [].
    + intros k g H. cbn in H. destruct (String.eqb k "x"); discriminate.
    + intros k p v [].
    + intros x w. apply Extras_main.current_refl.
  - repeat constructor.
  - vm_compute. reflexivity.
Qed.
