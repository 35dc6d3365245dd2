(** Props_Groups.v -- property theorems: Unions inside Unions (typing_fillers.py:19-88)
    Each theorem is closed by the lemma of the same statement in Groups_main.v; the examples
    show that concrete, non-trivial cases meet the hypotheses. *)

From Verif Require Import Base Py Filler Spec_Filler Demo.
From Verif Require Filler_proofs Filler_shape Filler_eqs Filler_main Hints_docs Names_main.
Open Scope string_scope.
Open Scope list_scope.

From Verif Require Import Groups_main.

(** C166: a class statement succeeds, or fails with the same error, whether or not some members of
    a Union are grouped in a Union of their own *)
Theorem c166_statement : forall {obj ty W} (P : Py obj ty W) d toks l hs h r e, a_group hs h ->
  ((exists f, make_filler P d (HAnn (HUnion (l ++ h :: r)) toks) [] = Ok f) <->
   (exists g, make_filler P d (HAnn (HUnion (l ++ hs ++ r)) toks) [] = Ok g)) /\
  (make_filler P d (HAnn (HUnion (l ++ h :: r)) toks) [] = Raise e <->
   make_filler P d (HAnn (HUnion (l ++ hs ++ r)) toks) [] = Raise e).
Proof. exact (@c166_statement_proof). Qed.
Print Assumptions c166_statement.

(** C166: what the Union without groups accepts, the one with the group accepts, and it stores the same; what the
    one with the group accepts, the one without accepts as well and stores the same, unless it finds it
    ambiguous.  The members are asked in the same order and have the same effects.  (At least one member of the
    group checks types.) *)
Theorem c166_values : forall {obj ty W} (P : Py obj ty W) d toks l hs h r f g, a_group hs h -> hs <> [] ->
  hollow_hint d no_sub_tokens toks [] (HUnion hs) = false ->
  make_filler P d (HAnn (HUnion (l ++ h :: r)) toks) [] = Ok f ->
  make_filler P d (HAnn (HUnion (l ++ hs ++ r)) toks) [] = Ok g -> forall x w,
  (forall y w', call P g x w = (Ok y, w') -> call P f x w = (Ok y, w')) /\
  (forall y w', call P f x w = (Ok y, w') -> call P g x w = (Ok y, w') \/ exists m, call P g x w = (Raise (mkexc ValueError m), w')) /\
  snd (call P f x w) = snd (call P g x w).
Proof. exact (@c166_values_proof). Qed.
Print Assumptions c166_values.

(** C166 does not hold the other way round: two members that both convert a value are ambiguous, but if they are a
    group of their own, a third member that converts it decides *)
Theorem c166_ambiguous_refuted : exists hs h r f g x y w m,
  a_group hs h /\ hollow_hint SCheck no_sub_tokens [] [] (HUnion hs) = false /\
  make_filler demo0 SCheck (HAnn (HUnion (h :: r)) []) [] = Ok f /\
  make_filler demo0 SCheck (HAnn (HUnion (hs ++ r)) []) [] = Ok g /\
  call demo0 f x w = (Ok y, w) /\ call demo0 g x w = (Raise (mkexc ValueError m), w).
Proof. exact (@c166_ambiguous_refuted_proof). Qed.
Print Assumptions c166_ambiguous_refuted.

(** Optional[NewType("Id", Union[int, str])] and Union[int, str, None] *)
Example c166_case : exists f g,
  let id := HNewType (HUnion [HTy TInt; HAnn (HTy TStr) [gives (DInt 5) (DStr "5")]]) in
  hollow_hint SCheck no_sub_tokens [] [] (HUnion [HTy TInt; HAnn (HTy TStr) [gives (DInt 5) (DStr "5")]] : @hint dobj dty demo_state) = false /\
  make_filler demo0 SCheck (HAnn (HUnion [id; HNone]) []) [] = Ok f /\
  make_filler demo0 SCheck (HAnn (HUnion [HTy TInt; HAnn (HTy TStr) [gives (DInt 5) (DStr "5")]; HNone]) []) [] = Ok g /\
  call demo0 f (DInt 5) st0 = (Ok (DInt 5), st0) /\ call demo0 g (DInt 5) st0 = (Ok (DInt 5), st0) /\
  call demo0 f DNone st0 = (Ok DNone, st0) /\ call demo0 g DNone st0 = (Ok DNone, st0) /\
  (exists e, call demo0 f (DFun 0) st0 = (Raise e, st0)) /\ exists e, call demo0 g (DFun 0) st0 = (Raise e, st0).
Proof. do 2 eexists. repeat split; eexists; reflexivity. Qed.
