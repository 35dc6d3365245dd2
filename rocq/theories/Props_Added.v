(** Props_Added.v -- property theorems: tokens added in pre_bind (records/field.py:128-220, records/fillers/filler.py:87-96)
    Each theorem is closed by the lemma of the same statement in Added_main.v; the examples
    show that concrete, non-trivial cases meet the hypotheses. *)

From Verif Require Import Base Py Filler Spec_Filler Spec_Added Demo.
From Verif Require Import Filler_proofs Filler_sound Filler_shape Filler_eqs Hints_docs.

From Verif Require Import Added_main.

(** C96: whatever pre_bind adds -- validators, coercers and check styles, for the field or
    for one of its parts (sub_key) -- acts as if it had been written into the annotation:
    at the head of the field's own tokens, or at the head of the tokens of the part.  The
    class is refused in the same cases, and otherwise the field accepts, rejects and returns
    the same.  Missing: fields, or parts given tokens, that are Unions (see the other
    theorems). *)
Theorem c96_written_partial : forall {obj ty W} (P : Py obj ty W) dflt h ops,
  is_union h = false ->
  (forall i t, In (Some i, t) ops -> i < List.length (parts h)) ->
  (forall i p, nth_error (parts h) i = Some p -> is_union p = false \/ sub_ops ops i = []) ->
  let h' := write_first (own_ops ops) (on_parts (fun i p => write_first (sub_ops ops i) p) h) in
  (forall f, make_filler P dflt h ops = Ok f ->
     exists g, make_filler P dflt h' [] = Ok g /\ forall x w, call P f x w = call P g x w) /\
  (forall e, make_filler P dflt h ops = Raise e -> exists e', make_filler P dflt h' [] = Raise e').
Proof. exact (@c96_written_partial_proof). Qed.
Print Assumptions c96_written_partial.

(** C96, Unions: what pre_bind adds to a Union field acts as if it had been written at the
    end of the Union's tokens. *)
Theorem c96_union_partial : forall {obj ty W} (P : Py obj ty W) dflt h ts,
  is_union h = true ->
  (forall f, make_filler P dflt h (own_only ts) = Ok f ->
     exists g, make_filler P dflt (write_last ts h) [] = Ok g /\ forall x w, call P f x w = call P g x w) /\
  (forall e, make_filler P dflt h (own_only ts) = Raise e -> exists e', make_filler P dflt (write_last ts h) [] = Raise e').
Proof. exact (@c96_union_partial_proof). Qed.
Print Assumptions c96_union_partial.

(** C96, Unions: what pre_bind adds to the members of a Union that has no tokens of its own
    acts as if it had been written at the head of the members' tokens. *)
Theorem c96_members_partial : forall {obj ty W} (P : Py obj ty W) dflt h ops,
  is_union h = true -> unannotated h = true -> own_ops ops = [] ->
  (forall i t, In (Some i, t) ops -> i < List.length (parts h)) ->
  (forall i p, nth_error (parts h) i = Some p -> is_union p = false \/ sub_ops ops i = []) ->
  let h' := on_parts (fun i p => write_first (sub_ops ops i) p) h in
  (forall f, make_filler P dflt h ops = Ok f ->
     exists g, make_filler P dflt h' [] = Ok g /\ forall x w, call P f x w = call P g x w) /\
  (forall e, make_filler P dflt h ops = Raise e -> exists e', make_filler P dflt h' [] = Raise e').
Proof. exact (@c96_members_partial_proof). Qed.
Print Assumptions c96_members_partial.

(** C96: a sub_key that names no part of the annotation is refused with LookupError. *)
Theorem c96_no_part : forall {obj ty W} (P : Py obj ty W) dflt h i t ops f,
  make_filler P dflt h [] = Ok f -> List.length (parts h) <= i ->
  exists e, make_filler P dflt h ((Some i, t) :: ops) = Raise e /\ exc_cls e = LookupError.
Proof. exact (@c96_no_part_proof). Qed.
Print Assumptions c96_no_part.

(** C96: the sub-filler of a number is the filler of that part of the annotation: the members of
    a Union and of a Tuple, the elements of an iterable, the keys (0) and the values (1) of a mapping. *)
Theorem c96_sub_filler : forall {obj ty W} (P : Py obj ty W) h own f i,
  gaf P own h = Ok f ->
  match nth_error (parts h) i with
  | Some p => exists s, gaf P [] p = Ok s /\ sub_filler f (Some i) = Ok s
  | None => exists e, sub_filler f (Some i) = Raise e /\ exc_cls e = LookupError
  end.
Proof. exact (@c96_sub_filler_proof). Qed.
Print Assumptions c96_sub_filler.

(** ... and adding a token for a part adds it to that filler: the other parts stay as they are. *)
Theorem c96_apply_at : forall {obj ty W} (P : Py obj ty W) i t f f',
  apply_at P (Some i) t f = Ok f' ->
  exists s s', sub_filler f (Some i) = Ok s /\ apply P s t = Ok s' /\ sub_filler f' (Some i) = Ok s' /\
    (forall j, j <> i -> sub_filler f' (Some j) = sub_filler f (Some j)).
Proof. exact (@c96_apply_at_proof). Qed.
Print Assumptions c96_apply_at.

(** C96 fails for Unions: Annotated[Union[int, str], add_one] with negate added in pre_bind
    turns 5 into -6, Annotated[Union[int, str], negate, add_one] turns it into -4 -- as
    Annotated[int, add_one] does when negate is added to it. *)
Theorem c96_union_refuted :
  ~ (forall obj ty W (P : Py obj ty W) dflt h ts f g x w,
       make_filler P dflt h (own_only ts) = Ok f -> make_filler P dflt (write_first ts h) [] = Ok g ->
       call P f x w = call P g x w).
Proof. exact (@c96_union_refuted_proof). Qed.
Print Assumptions c96_union_refuted.

(** a list of ints with a validator of its own, one added, and one added to the elements *)
Example c96_list :
  let h := HAnn (HIter RkPlain TList (HAnn (HTy TInt) [add_one])) [] in
  let ops := [(Some 0, neg_then)] in
  exists f, make_filler demo0 SCheck h ops = Ok f /\ is_union h = false /\
    call demo0 f (dlist [DInt 5; DInt 7]) st0 = (Ok (dlist [DInt (-4); DInt (-6)]), st0).
Proof. eexists. repeat split; vm_compute; reflexivity. Qed.
Example c96_union_case : exists f, make_filler demo0 SCheck either (own_only [neg_then]) = Ok f /\
  call demo0 f (DInt 5) st0 = (Ok (DInt (-6)), st0).
Proof. eexists. split; vm_compute; reflexivity. Qed.
Example c96_members_case :
  let h := HUnion [HAnn (HTy TInt) [add_one]; HTy TStr] in
  exists f, make_filler demo0 SCheck h [(Some 0, neg_then)] = Ok f /\ unannotated h = true /\
  call demo0 f (DInt 5) st0 = (Ok (DInt (-4)), st0).
Proof. eexists. repeat split; vm_compute; reflexivity. Qed.
Example c96_no_part_case : exists f, make_filler demo0 SCheck (HTy TInt) [] = Ok f.
Proof. eexists. vm_compute. reflexivity. Qed.
