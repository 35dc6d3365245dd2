(** Props_Tuples.v -- property theorems: Tuple[T, T, T] and Tuple[T, ...] (typing_fillers.py:159-247)
    Each theorem is closed by the lemma of the same statement in Tuples_main.v; the examples
    show that concrete, non-trivial cases meet the hypotheses. *)

From Verif Require Import Base Py Filler Spec_Filler Demo.
From Verif Require Filler_main Filler_eqs.
Open Scope string_scope.
Open Scope list_scope.

From Verif Require Import Tuples_main.

(** C168: a field annotated Tuple[T, ..., T] with n times T does with every tuple of n elements what a field annotated
    Tuple[T, ...] does, error and effects included; any other length it refuses with ValueError.  Whether an argument
    is a tuple, or is converted to one, both decide as a field annotated tuple with the same tokens. *)
Theorem c168_tuples : forall {obj ty W} (P : Py obj ty W) d h toks n f g f0, plain_class P (t_tuple P) ->
  make_filler P d (HAnn (HTupleN (repeat h (S n))) toks) [] = Ok f ->
  make_filler P d (HAnn (HTupleV h) toks) [] = Ok g ->
  make_filler P d (HAnn (HTy (t_tuple P)) toks) [] = Ok f0 -> forall x w,
  (forall e w', call P f0 x w = (Raise e, w') -> call P f x w = (Raise e, w') /\ call P g x w = (Raise e, w')) /\
  (forall z w' l, call P f0 x w = (Ok z, w') -> elems P z = Some l -> List.length l = S n -> call P f x w = call P g x w) /\
  (forall z w' l, call P f0 x w = (Ok z, w') -> elems P z = Some l -> List.length l <> S n -> eff_style d toks <> SHollow ->
     exists m, call P f x w = (Raise (mkexc ValueError m), w')).
Proof. exact (@c168_tuples_proof). Qed.
Print Assumptions c168_tuples.

(** C168: ... so a Tuple[T, ...] field stores everything a Tuple[T, ..., T] field stores *)
Theorem c168_variable : forall {obj ty W} (P : Py obj ty W) d h toks n f g, plain_class P (t_tuple P) -> eff_style d toks <> SHollow ->
  make_filler P d (HAnn (HTupleN (repeat h (S n))) toks) [] = Ok f ->
  make_filler P d (HAnn (HTupleV h) toks) [] = Ok g -> forall x w y w',
  call P f x w = (Ok y, w') -> call P g x w = (Ok y, w').
Proof. exact (@c168_variable_proof). Qed.
Print Assumptions c168_variable.

(** Tuple[T, T] and Tuple[T, ...] with a coercing T, on tuples of two and three elements *)
Example c168_case : exists f g f0,
  let h := HAnn (HTy TInt) [TCoerce (CGlobal (fun _ => Ok (fun x => if dis x (DStr "7") then ret (DInt 7) else raise (mkexc ValueError ""))))] in
  plain_class demo0 (t_tuple demo0) /\
  make_filler demo0 SCheck (HAnn (HTupleN (repeat h 2)) []) [] = Ok f /\ make_filler demo0 SCheck (HAnn (HTupleV h) []) [] = Ok g /\
  make_filler demo0 SCheck (HAnn (HTy (t_tuple demo0)) []) [] = Ok f0 /\
  call demo0 f (dtuple [DInt 1; DStr "7"]) st0 = (Ok (dtuple [DInt 1; DInt 7]), st0) /\
  call demo0 g (dtuple [DInt 1; DStr "7"]) st0 = (Ok (dtuple [DInt 1; DInt 7]), st0) /\
  call demo0 g (dtuple [DInt 1; DStr "7"; DInt 2]) st0 = (Ok (dtuple [DInt 1; DInt 7; DInt 2]), st0) /\
  exists m, call demo0 f (dtuple [DInt 1; DStr "7"; DInt 2]) st0 = (Raise (mkexc ValueError m), st0).
Proof. do 3 eexists. repeat split; try discriminate. eexists. reflexivity. Qed.
