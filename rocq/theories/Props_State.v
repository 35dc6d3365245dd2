(** Props_State.v -- property theorems: filling and what happened before (LiteralFiller)
    Each theorem is closed by the lemma of the same statement in State_main.v; the examples
    show that concrete, non-trivial cases meet the hypotheses. *)

From Verif Require Import Base Py Select Filler Spec_Filler Spec_State Classes Spec_Classes Runtime Record Spec_Record Demo DemoRt DemoCls.
From Verif Require Dict_proofs Filler_proofs Filler_obl Classes_proofs Record_proofs Classes_main New_main.
Open Scope string_scope.
Open Scope list_scope.

From Verif Require Import State_main.

(** C14 does not hold: the field is a Literal with a coercer that turns 7 into a literal and
    leaves other numbers alone; it never looks at the state.  A construction from 7 succeeds,
    but after a failed construction from 5 it fails. *)
Theorem c14_literal_refuted :
  exists (seed : Z) (d : @decl dobj dty rstate) c x w1 e w2 e' w3,
    made (rt_py (demo_rt seed)) c /\ make_class rt0 d = Ok c /\ no_post_new (demo_rt seed) c /\
    d_anns d = [("x", AHint (HLiteral 0 [DStr "a"])
      [ATok (TCoerce (CGlobal (fun _ => Ok (fun v => ret (match v with DInt 7 => DStr "a" | _ => v end)))))])] /\
    construct (demo_rt seed) 1 c None [("x", DInt 7)] w0 = (Ok x, w1) /\
    construct (demo_rt seed) 1 c None [("x", DInt 5)] w0 = (Raise e, w2) /\
    construct (demo_rt seed) 1 c None [("x", DInt 7)] w2 = (Raise e', w3).
Proof. exact (@c14_literal_refuted_proof). Qed.
Print Assumptions c14_literal_refuted.

(** C14, what does hold, for fields: if the coercers and validators of a field do not depend
    on the state and none of them applies to a Literal, filling does not depend on the state:
    not on earlier fills of any field, failed or not. *)
Theorem c14_fields_partial : forall {obj ty W} (P : Py obj ty W) dflt h ops f,
  runtime_blind P ->
  make_filler P dflt h ops = Ok f ->
  Forall token_blind (hint_tokens h ++ map snd ops) ->
  literals_left_alone h ops ->
  forall x w1 w2, same_outcome (fst (call P f x w1)) (fst (call P f x w2)).
Proof. exact (@c14_fields_partial_proof). Qed.
Print Assumptions c14_fields_partial.

(** C14, what does hold, for records: if so it is for all fields of a class, and its default
    factories do not raise, then arguments that make a record in one state make one in every
    other state, and the passed fields hold the same objects. *)
Theorem c14_records_partial : forall {obj ty W} (R : Rt obj ty W) c n kw w1 w2 x1 w1',
  made (rt_py R) c -> no_post_new R c -> no_reserved kw -> dict_ok kw ->
  runtime_blind (rt_py R) ->
  (forall k f, dget k (c_fields c) = Some f -> exists dflt h ops,
     make_filler (rt_py R) dflt h ops = Ok (f_filler f) /\
     Forall token_blind (hint_tokens h ++ map snd ops) /\ literals_left_alone h ops) ->
  (forall k f g w, dget k (c_fields c) = Some f -> f_default f = DefFactory g -> exists v w', g w = (Ok v, w')) ->
  construct R n c None kw w1 = (Ok x1, w1') ->
  exists x2 w2' i1 i2,
    construct R n c None kw w2 = (Ok x2, w2') /\
    lookup R w1' x1 = Some i1 /\ lookup R w2' x2 = Some i2 /\
    forall k, In k (keys kw) -> dget k (i_dict i1) <> None /\ dget k (i_dict i1) = dget k (i_dict i2).
Proof. exact (@c14_records_partial_proof). Qed.
Print Assumptions c14_records_partial.

(** a pair of a Literal and an int that may be parsed from text *)
Definition text_to_int : @token dobj dty rstate := TCoerce (CGlobal (fun _ => Ok (fun v => match v with
  | DStr "7" => ret (DInt 7) | _ => raise (mkexc ValueError "") end))).
Definition decl_pair := rdecl 0 true false None SCheck
  [("x", (AHint (HTupleN [HLiteral 0 [DStr "a"; DInt 1]; HAnn (HTy TInt) [text_to_int]]) [], NoDefault)); ("y", (an TInt, DefVal (DInt 3)))] [] no_post.
Example c14_blind : forall seed,
  made (rt_py (demo_rt seed)) (made_of decl_pair) /\ no_post_new (demo_rt seed) (made_of decl_pair) /\ runtime_blind (rt_py (demo_rt seed)) /\
  (forall k f, dget k (c_fields (made_of decl_pair)) = Some f -> exists dflt h ops,
     make_filler (rt_py (demo_rt seed)) dflt h ops = Ok (f_filler f) /\
     Forall token_blind (hint_tokens h ++ map snd ops) /\ literals_left_alone h ops).
Proof.
  intros seed. split.
  { apply made_class with (d := decl_pair); [reflexivity| |intros b [E|[]]; discriminate]. repeat constructor; cbn; intuition discriminate. }
  split; [intros x w; reflexivity|]. split.
  { split; [|split; [|split; [|exact dhash_error_Exception]]]; intros; intros w1 w2; cbn; try reflexivity; destruct v; reflexivity. }
  intros k f E. cbn in E. destruct (String.eqb k "x"); [injection E as <-|destruct (String.eqb k "y"); [injection E as <-|discriminate]].
  - exists SCheck, (HTupleN [HLiteral 0 [DStr "a"; DInt 1]; HAnn (HTy TInt) [text_to_int]]), []. split; [reflexivity|]. split.
    + cbn. constructor; [|constructor]. cbn. intros o g [= <-] x w1 w2. destruct x; try reflexivity. 
      destruct (string_dec s "7") as [->|N]; [reflexivity|]. cbn.
      repeat (match goal with |- context [match ?s with _ => _ end] => destruct s end; try reflexivity).
    + split; [cbn; auto|left; constructor].
  - exists SCheck, (HTy TInt), []. split; [reflexivity|]. split; [constructor|]. split; [exact I|left; constructor].
Qed.
Example c14_both : forall seed, exists x1 w1 e w2 x2 w3,
  construct (demo_rt seed) 1 (made_of decl_pair) None [("x", dtuple [DStr "a"; DStr "7"])] w0 = (Ok x1, w1) /\
  construct (demo_rt seed) 1 (made_of decl_pair) None [("x", dtuple [DInt 1; DStr "b"])] w0 = (Raise e, w2) /\
  construct (demo_rt seed) 1 (made_of decl_pair) None [("x", dtuple [DStr "a"; DStr "7"])] w2 = (Ok x2, w3).
Proof. intros seed. do 6 eexists. split; [reflexivity|]. split; reflexivity. Qed.
