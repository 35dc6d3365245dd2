(** Props_Optional.v -- property theorems: Optional fields (typing_fillers.py:19-88, std_fillers.py:368-372)
    Each theorem is closed by the lemma of the same statement in Optional_main.v; the examples
    show that concrete, non-trivial cases meet the hypotheses. *)

From Verif Require Import Base Py Filler Spec_Filler Spec_Settle Demo.
From Verif Require Filler_proofs Filler_shape Filler_eqs Filler_main.
Open Scope string_scope.
Open Scope list_scope.

From Verif Require Import Optional_main.

(** C167: an Optional[T] field treats every object but None as a field of T does: it stores the same with the same
    effects, or it refuses the object.  (The error is then that of the last member, None: a TypeError.) *)
Theorem c167_present : forall {obj ty W} (P : Py obj ty W) d h f g x w, checks d ->
  make_filler P d (HUnion [h; HNone]) [] = Ok f -> make_filler P d h [] = Ok g -> x <> o_none P ->
  (forall y w', call P g x w = (Ok y, w') -> call P f x w = (Ok y, w')) /\
  (forall e w', call P g x w = (Raise e, w') -> is_Exception e = true -> exists m, call P f x w = (Raise (mkexc TypeError m), w')) /\
  (forall e w', call P g x w = (Raise e, w') -> is_Exception e = false -> call P f x w = (Raise e, w')).
Proof. exact (@c167_present_proof). Qed.
Print Assumptions c167_present.

(** C167: the same with assertions, validators and a type checking style on the Optional itself: for every object but None,
    Annotated[Optional[T], ...] is Annotated[T, ...] *)
Theorem c167_tokens : forall {obj ty W} (P : Py obj ty W) d h toks f g x w, checks (eff_style d toks) -> has_coercer toks = false ->
  make_filler P d (HAnn (HUnion [h; HNone]) toks) [] = Ok f -> make_filler P d h (own_only toks) = Ok g -> x <> o_none P ->
  (forall y w', call P g x w = (Ok y, w') -> call P f x w = (Ok y, w')) /\
  (forall e w', call P g x w = (Raise e, w') -> is_Exception e = true -> exists m, call P f x w = (Raise (mkexc TypeError m), w')) /\
  (forall e w', call P g x w = (Raise e, w') -> is_Exception e = false -> call P f x w = (Raise e, w')).
Proof. exact (@c167_tokens_proof). Qed.
Print Assumptions c167_tokens.

(** C167: Union[None, T], with None in front, treats every object but None exactly as a field of T does, error
    and all *)
Theorem c167_first : forall {obj ty W} (P : Py obj ty W) d h f g x w, checks d ->
  make_filler P d (HUnion [HNone; h]) [] = Ok f -> make_filler P d h [] = Ok g -> x <> o_none P ->
  call P f x w = call P g x w.
Proof. exact (@c167_first_proof). Qed.
Print Assumptions c167_first.

(** C167: None is stored as None, in either order, whether T refuses it, accepts it or has a coercer that would turn it
    into something else.  (In the last case None is not exactly of the type T.) *)
Theorem c167_none : forall {obj ty W} (P : Py obj ty W) d h f g w, checks d ->
  make_filler P d (HUnion [h; HNone]) [] = Ok f \/ make_filler P d (HUnion [HNone; h]) [] = Ok f -> make_filler P d h [] = Ok g ->
  (forall e w', call P g (o_none P) w = (Raise e, w') -> is_Exception e = true -> call P f (o_none P) w = (Ok (o_none P), w')) /\
  (forall w', call P g (o_none P) w = (Ok (o_none P), w') -> call P f (o_none P) w = (Ok (o_none P), w')) /\
  (forall y w' q, call P g (o_none P) w = (Ok y, w') -> match_kind P d [] [] h (o_none P) = Some q -> q <> PStrict ->
     call P f (o_none P) w = (Ok (o_none P), w')).
Proof. exact (@c167_none_proof). Qed.
Print Assumptions c167_none.

(** Assertions on the Optional itself: Annotated[Optional[T], assertion] asks the assertion about None, too, so None is refused if the assertion refuses it (and T, with the assertion, does). *)
Theorem c167_asserted : forall {obj ty W} (P : Py obj ty W) d h v c f g w e1 w1 e2 w2, checks d ->
  make_filler P d (HAnn (HUnion [h; HNone]) [TValid (VGlobal v)]) [] = Ok f ->
  v (OTy (t_none P)) = Ok c -> c (o_none P) w1 = (Raise e2, w2) -> is_Exception e2 = true ->
  make_filler P d h [(None, TValid (VGlobal v))] = Ok g -> call P g (o_none P) w = (Raise e1, w1) -> is_Exception e1 = true ->
  call P f (o_none P) w = (Raise e2, w2).
Proof. exact (@c167_asserted_proof). Qed.
Print Assumptions c167_asserted.

(** Optional[Annotated[int, coercer]] whose coercer turns None into 0 and "5" into 5 *)
Example c167_case : exists f f' g,
  let h := HAnn (HTy TInt) [TCoerce (CGlobal (fun _ => Ok (fun x => if dis x DNone then ret (DInt 0) else if dis x (DStr "5") then ret (DInt 5) else raise (mkexc ValueError ""))))] in
  make_filler demo0 SCheck (HUnion [h; HNone]) [] = Ok f /\ make_filler demo0 SCheck (HUnion [HNone; h]) [] = Ok f' /\ make_filler demo0 SCheck h [] = Ok g /\
  match_kind demo0 SCheck [] [] h DNone = Some PCoerce /\ call demo0 g DNone st0 = (Ok (DInt 0), st0) /\
  call demo0 f DNone st0 = (Ok DNone, st0) /\ call demo0 f' DNone st0 = (Ok DNone, st0) /\
  call demo0 f (DStr "5") st0 = (Ok (DInt 5), st0) /\ call demo0 g (DStr "5") st0 = (Ok (DInt 5), st0) /\
  (exists m, call demo0 g (DStr "x") st0 = (Raise (mkexc ValueError m), st0)) /\
  (exists m, call demo0 f (DStr "x") st0 = (Raise (mkexc TypeError m), st0)) /\
  exists m, call demo0 f' (DStr "x") st0 = (Raise (mkexc ValueError m), st0).
Proof. do 3 eexists. repeat split; eexists; reflexivity. Qed.

(** Annotated[Optional[int], assertion] with an assertion that refuses None *)
Example c167_asserted_case : exists f g,
  let v := fun _ => Ok (fun x w => if dis x DNone then (Raise (mkexc TypeError "not supported between instances of 'NoneType' and 'int'"), w) else (Ok x, w)) in
  eff_style SCheck [TValid (VGlobal v)] = SCheck /\ has_coercer [TValid (VGlobal v)] = false /\
  make_filler demo0 SCheck (HAnn (HUnion [HTy TInt; HNone]) [TValid (VGlobal v)]) [] = Ok f /\
  make_filler demo0 SCheck (HTy TInt) [(None, TValid (VGlobal v))] = Ok g /\
  (exists e, call demo0 g DNone st0 = (Raise e, st0) /\ is_Exception e = true) /\
  call demo0 f (DInt 3) st0 = (Ok (DInt 3), st0) /\ exists e, call demo0 f DNone st0 = (Raise e, st0).
Proof. do 2 eexists. repeat split; eexists; try split; reflexivity. Qed.
