(** Props_Repeat.v -- property theorems: annotations that say something twice (records/fillers/filler.py:162-238)
    Each theorem is closed by the lemma of the same statement in Repeat_main.v; the examples
    show that concrete, non-trivial cases meet the hypotheses. *)

From Verif Require Import Base Py Select Filler Spec_Filler Classes Spec_Classes Runtime Record Spec_Record Spec_Settle Spec_Wider Spec_Mixed Spec_Repeat Demo DemoRt DemoCls.
From Verif Require Import Wider_main Mixed_main.
From Verif Require Record_proofs Dict_proofs Filler_proofs Filler_shape Filler_eqs Filler_main.
Open Scope string_scope.
Open Scope list_scope.

From Verif Require Import Repeat_main.

(** C173: in an annotation, and among the tokens added to a field later, it changes nothing to repeat a token that is settled, or to give a style
    before another one; the field does the same with every object: the same result, the same error, the same effects, also inside Unions and containers *)
Theorem c173_repeated : forall {obj ty W} (P : Py obj ty W) d h h' toks toks' f, abridged P h h' -> repeated P toks toks' ->
  make_filler P d h (own_only toks) = Ok f ->
  exists g, make_filler P d h' (own_only toks') = Ok g /\ forall x w, call P g x w = call P f x w.
Proof. exact (@c173_repeated_proof). Qed.
Print Assumptions c173_repeated.

(** C173: and the one annotation is refused if and only if the other is *)
Theorem c173_refused : forall {obj ty W} (P : Py obj ty W) d h h' toks toks', abridged P h h' -> repeated P toks toks' ->
  (exists e, make_filler P d h (own_only toks) = Raise e) <-> (exists e, make_filler P d h' (own_only toks') = Raise e).
Proof. exact (@c173_refused_proof). Qed.
Print Assumptions c173_refused.

(** C173: of several type checking styles only the last counts, wherever the others stand: the annotation without them is the same *)
Theorem c173_last_style : forall {obj ty W} (P : Py obj ty W) d h ts s us f,
  make_filler P d (HAnn h (ts ++ TStyle s :: us)) [] = Ok f ->
  exists g, make_filler P d (HAnn h (filter (fun t => match t with TStyle _ => false | _ => true end) ts ++ TStyle s :: us)) [] = Ok g /\
    forall x w, call P g x w = call P f x w.
Proof. exact (@c173_last_style_proof). Qed.
Print Assumptions c173_last_style.

(** C173: a class whose fields are declared with such repetitions does the same in every call, with any arguments, in every factory *)
Theorem c173_record : forall {obj ty W} (R : Rt obj ty W) n c fs', abridged_fields (rt_py R) (c_fields c) fs' ->
  let c' := with_fields c fs' in
  (forall pos kw w, construct R n c' pos kw w = construct R n c pos kw w) /\
  (forall s maps kw w, from_mapping R n c' s maps kw w = from_mapping R n c s maps kw w) /\
  (forall s x maps kw w, from_instance R n c' s x maps kw w = from_instance R n c s x maps kw w) /\
  (forall s v w, from_json R n c' s v w = from_json R n c s v w) /\
  (forall v w, parse R n c' v w = parse R n c v w).
Proof. exact (@c173_record_proof). Qed.
Print Assumptions c173_record.

(** C173: assertions that look at nothing but the object can be repeated *)
Theorem c173_assertions : forall {obj ty W} (P : Py obj ty W) v, testing (TValid v) -> settled P (TValid v).
Proof. exact (@c173_assertions_proof). Qed.
Print Assumptions c173_assertions.

(** C173: refuted for a validator that changes what it returned *)
Theorem c173_validator_refuted : exists (P : Py dobj dty demo_state) h t f g x y z w,
  make_filler P SCheck (HAnn h [t]) [] = Ok f /\ make_filler P SCheck (HAnn h [t; t]) [] = Ok g /\
  call P f x w = (Ok y, w) /\ call P g x w = (Ok z, w) /\ y <> z.
Proof. exact (@c173_validator_refuted_proof). Qed.
Print Assumptions c173_validator_refuted.

(** C173: refuted for a settled coercer that is repeated behind another one: it is then asked for what the other returned *)
Theorem c173_apart_refuted : exists (P : Py dobj dty demo_state) h t u f g x y e w,
  settled P t /\ settled P u /\ is_coercion t = true /\ is_coercion u = true /\
  make_filler P SCheck (HAnn h [t; u]) [] = Ok f /\ make_filler P SCheck (HAnn h [t; u; t]) [] = Ok g /\
  call P f x w = (Raise e, w) /\ call P g x w = (Ok y, w).
Proof. exact (@c173_apart_refuted_proof). Qed.
Print Assumptions c173_apart_refuted.

(** a coercer given twice, and styles that do not count, inside a Union in a tuple *)
Example c173_case : exists f g,
  let h := HTupleV (HUnion [HAnn (HTy TInt) [TStyle SHollow; one_of; TStyle SStrict; one_of]; HTy TStr]) in
  let h' := HTupleV (HUnion [HAnn (HTy TInt) [one_of; TStyle SStrict]; HTy TStr]) in
  abridged demo0 h h' /\ make_filler demo0 SCheck h [] = Ok f /\ make_filler demo0 SCheck h' [] = Ok g /\
  call demo0 f (dtuple [DInt 1; DStr "a"; DInt 0]) st0 = (Ok (dtuple [DInt 1; DStr "a"; DInt 0]), st0) /\
  call demo0 g (dtuple [DInt 1; DStr "a"; DInt 0]) st0 = (Ok (dtuple [DInt 1; DStr "a"; DInt 0]), st0).
Proof.
  do 2 eexists. split; [|split; [reflexivity|split; [reflexivity|split; reflexivity]]].
  apply ab_tuples, ab_union, aab_cons; [|apply aab_cons; [apply ab_simple; reflexivity|constructor]]. apply ab_ann; [|apply ab_simple; reflexivity].
  eapply rp_again; [apply rp_swap; exact I|]. eapply rp_again; [apply rp_behind, rp_styles|]. eapply rp_again; [apply rp_behind, rp_swap; exact I|].
  apply rp_twice. exact one_of_settled.
Qed.

Example c173_record_case : exists x w1,
  abridged_fields (rt_py (demo_rt 0)) (c_fields (one_field [TStyle SHollow; TStyle SCheck])) (c_fields (one_field [TStyle SCheck])) /\
  one_field [TStyle SCheck] = with_fields (one_field [TStyle SHollow; TStyle SCheck]) (c_fields (one_field [TStyle SCheck])) /\
  construct (demo_rt 0) 1 (one_field [TStyle SHollow; TStyle SCheck]) None [("x", DInt 5)] w0 = (Ok x, w1) /\
  (exists e, construct (demo_rt 0) 1 (one_field [TStyle SHollow; TStyle SCheck]) None [("x", DNone)] w0 = (Raise e, w0)).
Proof.
  do 2 eexists. split; [|split; [reflexivity|split; [reflexivity|eexists; reflexivity]]].
  apply abf_cons; [|constructor]. repeat (split; [reflexivity|]). exists SCheck, (HAnn (HTy TInt) [TStyle SHollow; TStyle SCheck]), (HAnn (HTy TInt) [TStyle SCheck]).
  split; [|split; reflexivity]. apply ab_ann; [apply rp_styles|apply ab_simple; reflexivity].
Qed.
