(** Props_Members.v -- property theorems: tokens on a Union (records/fillers/builtin_fillers/typing_fillers.py:23-71)
    Each theorem is closed by the lemma of the same statement in Members_main.v; the examples
    show that concrete, non-trivial cases meet the hypotheses. *)

From Verif Require Import Base Py Filler Spec_Filler Spec_Mixed Spec_Members Demo.
From Verif Require Import Wider_main Groups_main Mixed_main.
From Verif Require Filler_proofs Filler_shape Filler_eqs.
Open Scope string_scope.
Open Scope list_scope.

From Verif Require Import Members_main.

(** C171: tokens on a Union are tokens of each of its members, in front of those the member has: the field does the same with every
    object as the Union of the members with these tokens. *)
Theorem c171_members : forall {obj ty W} (P : Py obj ty W) d ts hs hs' f, Forall2 (member_with ts) hs hs' ->
  make_filler P d (HAnn (HUnion hs) ts) [] = Ok f ->
  exists g, make_filler P d (HUnion hs') [] = Ok g /\ forall x w, call P g x w = call P f x w.
Proof. exact (@c171_members_proof). Qed.
Print Assumptions c171_members.

(** C171: ... and the one annotation is refused if and only if the other is *)
Theorem c171_refused : forall {obj ty W} (P : Py obj ty W) d ts hs hs', Forall2 (member_with ts) hs hs' ->
  (exists e, make_filler P d (HAnn (HUnion hs) ts) [] = Raise e) <-> (exists e, make_filler P d (HUnion hs') [] = Raise e).
Proof. exact (@c171_refused_proof). Qed.
Print Assumptions c171_refused.

(** They come in front of those of the member: a coercer of the Union is asked before the coercers of the members, unlike
    one in Annotated[Annotated[T, ...], ...] *)
Theorem c171_behind_refuted : exists (P : Py dobj dty demo_state) h us ts f g x y z w,
  make_filler P SCheck (HAnn (HUnion [HAnn h us]) ts) [] = Ok f /\ make_filler P SCheck (HUnion [HAnn (HAnn h us) ts]) [] = Ok g /\
  call P f x w = (Ok y, w) /\ call P g x w = (Ok z, w) /\ y <> z.
Proof. exact (@c171_behind_refuted_proof). Qed.
Print Assumptions c171_behind_refuted.

(** C171 does not hold for annotated Unions inside Unions: there the tokens of the outer one come behind. *)
Theorem c171_nested_refuted : exists (P : Py dobj dty demo_state) h us ts f g x y z w,
  make_filler P SCheck (HAnn (HUnion [HAnn (HUnion [h]) us]) ts) [] = Ok f /\ make_filler P SCheck (HUnion [HAnn (HUnion [h]) (ts ++ us)]) [] = Ok g /\
  call P f x w = (Ok y, w) /\ call P g x w = (Ok z, w) /\ y <> z.
Proof. exact (@c171_nested_refuted_proof). Qed.
Print Assumptions c171_nested_refuted.

(** ... so the type checking style of the outer Union overrides that of the inner one, while the style of a member that is no Union
    overrides that of its Union *)
Theorem c171_style_refuted : exists (P : Py dobj dty demo_state) h f g x w e,
  make_filler P SHollow (HAnn (HUnion [HAnn (HUnion [h]) [TStyle SStrict]]) [TStyle SCheck]) [] = Ok f /\
  make_filler P SHollow (HAnn (HUnion [HAnn h [TStyle SStrict]]) [TStyle SCheck]) [] = Ok g /\
  call P f x w = (Ok x, w) /\ call P g x w = (Raise e, w).
Proof. exact (@c171_style_refuted_proof). Qed.
Print Assumptions c171_style_refuted.

Example c171_case : exists f g,
  let ts := [becomes (DInt 0) (DInt 1)] in
  let hs := [HAnn (HTy TInt) [turns DNone (DInt 0)]; HTupleV (HTy TInt)] in
  let hs' := [HAnn (HTy TInt) (ts ++ [turns DNone (DInt 0)]); HAnn (HTupleV (HTy TInt)) ts] in
  Forall2 (member_with ts) hs hs' /\
  make_filler demo0 SCheck (HAnn (HUnion hs) ts) [] = Ok f /\ make_filler demo0 SCheck (HUnion hs') [] = Ok g /\
  call demo0 f DNone st0 = (Ok (DInt 1), st0) /\ call demo0 g DNone st0 = (Ok (DInt 1), st0) /\
  call demo0 f (dtuple [DInt 0]) st0 = (Ok (dtuple [DInt 0]), st0).
Proof.
  do 2 eexists. split; [|split; [reflexivity|split; [reflexivity|split; [reflexivity|split; reflexivity]]]].
  constructor; [apply mw_annotated; reflexivity|constructor; [apply mw_plain; reflexivity|constructor]].
Qed.
