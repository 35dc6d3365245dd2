(** Props_Widen.v -- property theorems: Further members of a Union (typing_fillers.py:19-88)
    Each theorem is closed by the lemma of the same statement in Widen_main.v; the examples
    show that concrete, non-trivial cases meet the hypotheses. *)

From Verif Require Import Base Py Filler Spec_Filler Demo.
From Verif Require Filler_proofs Filler_shape Filler_eqs Filler_main Names_main Groups_main.
Open Scope string_scope.
Open Scope list_scope.

From Verif Require Import Widen_main.

(** C169: a further member of a Union, at any place, does not matter to arguments that it refuses: what is stored,
    whether the argument is refused and all effects are as without it.  (At least one of the other members checks types.) *)
Theorem c169_refused : forall {obj ty W} (P : Py obj ty W) d toks l h r f g m x w,
  hollow_hint d no_sub_tokens [] [] (HAnn (HUnion (l ++ r)) toks) = false ->
  make_filler P d (HAnn (HUnion (l ++ r)) toks) [] = Ok g -> make_filler P d h (own_only toks) = Ok m ->
  make_filler P d (HAnn (HUnion (l ++ h :: r)) toks) [] = Ok f -> refuses P m x ->
  (forall y w', call P g x w = (Ok y, w') <-> call P f x w = (Ok y, w')) /\ snd (call P g x w) = snd (call P f x w).
Proof. exact (@c169_refused_proof). Qed.
Print Assumptions c169_refused.

(** C169: if a Union stores an object as it is, and so does the further member, the Union with the further member does.
    So values that were stored under the old annotation can be stored under the new one *)
Theorem c169_kept : forall {obj ty W} (P : Py obj ty W) d toks l h r f g m x w w',
  hollow_hint d no_sub_tokens [] [] (HAnn (HUnion (l ++ r)) toks) = false ->
  make_filler P d (HAnn (HUnion (l ++ r)) toks) [] = Ok g -> make_filler P d h (own_only toks) = Ok m ->
  make_filler P d (HAnn (HUnion (l ++ h :: r)) toks) [] = Ok f -> keeps P m x ->
  call P g x w = (Ok x, w') -> call P f x w = (Ok x, w').
Proof. exact (@c169_kept_proof). Qed.
Print Assumptions c169_kept.

(** C169: what the Union with the further member stores is what the Union without it stores or what a field of the
    further member alone stores, for members without effects *)
Theorem c169_source : forall {obj ty W} (P : Py obj ty W) d toks l h r f g m x w y w' o,
  hollow_hint d no_sub_tokens [] [] (HAnn (HUnion (l ++ r)) toks) = false ->
  make_filler P d (HAnn (HUnion (l ++ r)) toks) [] = Ok g -> make_filler P d h (own_only toks) = Ok m ->
  make_filler P d (HAnn (HUnion (l ++ h :: r)) toks) [] = Ok f -> (forall w, call P m x w = (o, w)) ->
  (forall e, o = Raise e -> is_Exception e = true) ->
  call P f x w = (Ok y, w') -> call P g x w = (Ok y, w') \/ call P m x w = (Ok y, w).
Proof. exact (@c169_source_proof). Qed.
Print Assumptions c169_source.

(** C169: a Union of one member is that member.  So the theorems above, with one member before, compare T with
    Union[T, U] *)
Theorem c169_one : forall {obj ty W} (P : Py obj ty W) d toks h f g x w,
  hollow_hint d no_sub_tokens [] [] (HAnn (HUnion [h]) toks) = false ->
  make_filler P d (HAnn (HUnion [h]) toks) [] = Ok f -> make_filler P d h (own_only toks) = Ok g ->
  call P f x w = call P g x w.
Proof. exact (@c169_one_proof). Qed.
Print Assumptions c169_one.

(** C169 does not hold for arguments that the Union converts and the further member accepts: Union[int, str] with a
    coercer that reads numbers on int stores the text "5", where int alone stores 5 *)
Theorem c169_converted_refuted : exists t u f g m x y w,
  make_filler demo0 SCheck t [] = Ok g /\ make_filler demo0 SCheck u [] = Ok m /\ make_filler demo0 SCheck (HUnion [t; u]) [] = Ok f /\
  keeps demo0 m x /\ call demo0 g x w = (Ok y, w) /\ call demo0 f x w = (Ok x, w) /\ x <> y.
Proof. exact (@c169_converted_refuted_proof). Qed.
Print Assumptions c169_converted_refuted.

(** C169 does not hold for arguments that both convert: the Union refuses what each of its members accepts *)
Theorem c169_ambiguous_refuted : exists t u f g m x y z w e,
  make_filler demo0 SCheck t [] = Ok g /\ make_filler demo0 SCheck u [] = Ok m /\ make_filler demo0 SCheck (HUnion [t; u]) [] = Ok f /\
  call demo0 g x w = (Ok y, w) /\ call demo0 m x w = (Ok z, w) /\ call demo0 f x w = (Raise e, w).
Proof. exact (@c169_ambiguous_refuted_proof). Qed.
Print Assumptions c169_ambiguous_refuted.

(** from Union[int, None] to Union[int, str, None] *)
Example c169_case : exists f g m,
  hollow_hint SCheck no_sub_tokens [] [] (HAnn (HUnion ([HTy TInt] ++ [HNone])) [] : @hint dobj dty demo_state) = false /\
  make_filler demo0 SCheck (HAnn (HUnion ([HTy TInt] ++ [HNone])) []) [] = Ok g /\ make_filler demo0 SCheck (HTy TStr) (own_only []) = Ok m /\
  make_filler demo0 SCheck (HAnn (HUnion ([HTy TInt] ++ HTy TStr :: [HNone])) []) [] = Ok f /\
  refuses demo0 m (DInt 3) /\ keeps demo0 m (DStr "a") /\ call demo0 g (DInt 3) st0 = (Ok (DInt 3), st0) /\ call demo0 f (DInt 3) st0 = (Ok (DInt 3), st0) /\
  call demo0 f (DStr "a") st0 = (Ok (DStr "a"), st0) /\ exists e, call demo0 g (DStr "a") st0 = (Raise e, st0).
Proof. do 3 eexists. repeat split; [|eexists; reflexivity]. intros w. eexists. split; [|reflexivity]. reflexivity. Qed.

(** bool is a subclass of int: True is stored by Union[int, None] and kept by bool *)
Example c169_kept_case : exists f g m,
  hollow_hint SCheck no_sub_tokens [] [] (HAnn (HUnion ([HTy TInt] ++ [HNone])) [] : @hint dobj dty demo_state) = false /\
  make_filler demo0 SCheck (HAnn (HUnion ([HTy TInt] ++ [HNone])) []) [] = Ok g /\ make_filler demo0 SCheck (HTy TBool) (own_only []) = Ok m /\
  make_filler demo0 SCheck (HAnn (HUnion ([HTy TInt] ++ HTy TBool :: [HNone])) []) [] = Ok f /\
  keeps demo0 m (DBool true) /\ call demo0 g (DBool true) st0 = (Ok (DBool true), st0) /\ call demo0 f (DBool true) st0 = (Ok (DBool true), st0).
Proof. do 3 eexists. repeat split. Qed.
