(** Spec_Asserts.v -- annotations with their assertions in another order. *)
From Verif Require Import Base Py Filler Classes Spec_Mixed Spec_Repeat.

Section Asserts.
Context {obj ty W : Type} (P : Py obj ty W).
Notation token := (@token obj ty W).
Notation hint := (@hint obj ty W).

(** an assertion: it looks at nothing but the object, and returns it or raises an Exception *)
Definition assertion (t : token) : Prop :=
  match t with
  | TValid v => forall k f, get_validator P k v = Ok f -> exists p : obj -> option exc,
      (forall x e, p x = Some e -> is_Exception e = true) /\ forall x w, f x w = (match p x with None => Ok x | Some e => Raise e end, w)
  | _ => False
  end.

(** the same tokens but for the order of assertions without other validators between them, and the differences of [repeated] *)
Inductive reordered : list token -> list token -> Prop :=
| ro_repeated : forall l l', repeated P l l' -> reordered l l'
| ro_behind : forall t l l', reordered l l' -> reordered (t :: l) (t :: l')
| ro_assertions : forall t u l, assertion t -> assertion u -> reordered (t :: u :: l) (u :: t :: l)
| ro_sym : forall l l', reordered l l' -> reordered l' l
| ro_again : forall l1 l2 l3, reordered l1 l2 -> reordered l2 l3 -> reordered l1 l3.

(** the same annotation, but for such differences in any Annotated in it *)
Inductive resorted : hint -> hint -> Prop :=
| rs_simple : forall h, simple_hint h = true -> resorted h h
| rs_ann : forall h h' ts us, reordered ts us -> resorted h h' -> resorted (HAnn h ts) (HAnn h' us)
| rs_newtype : forall h h', resorted h h' -> resorted (HNewType h) (HNewType h')
| rs_union : forall hs hs', all_resorted hs hs' -> resorted (HUnion hs) (HUnion hs')
| rs_tuple : forall hs hs', all_resorted hs hs' -> resorted (HTupleN hs) (HTupleN hs')
| rs_generic : forall t hs hs', all_resorted hs hs' -> resorted (HGenN t hs) (HGenN t hs')
| rs_tuples : forall h h', resorted h h' -> resorted (HTupleV h) (HTupleV h')
| rs_iter : forall rk t h h', resorted h h' -> resorted (HIter rk t h) (HIter rk t h')
| rs_map : forall rk t hk hk' hv hv', resorted hk hk' -> resorted hv hv' -> resorted (HMap rk t hk hv) (HMap rk t hk' hv')
with all_resorted : list hint -> list hint -> Prop :=
| ars_nil : all_resorted [] []
| ars_cons : forall h h' hs hs', resorted h h' -> all_resorted hs hs' -> all_resorted (h :: hs) (h' :: hs').

(** the same field, declared with the same annotation but for such differences *)
Definition resorted_field (f f' : @field obj ty W) : Prop :=
  f_name f' = f_name f /\ f_default f' = f_default f /\ f_owner f' = f_owner f /\ f_tags f' = f_tags f /\
  exists d h h', resorted h h' /\ make_filler P d h [] = Ok (f_filler f) /\ make_filler P d h' [] = Ok (f_filler f').

Inductive resorted_fields : dict (@field obj ty W) -> dict (@field obj ty W) -> Prop :=
| rsf_nil : resorted_fields [] []
| rsf_cons : forall k f f' fs fs', resorted_field f f' -> resorted_fields fs fs' -> resorted_fields ((k, f) :: fs) ((k, f') :: fs').
End Asserts.

(** two calls answer the same but for the error: the same result, or errors of which both or none are Exceptions; the same effects *)
Definition same_answer {A W} (r r' : outcome A * W) : Prop :=
  snd r' = snd r /\ match fst r, fst r' with
                    | Ok y, Ok y' => y' = y
                    | Raise e, Raise e' => is_Exception e' = is_Exception e
                    | _, _ => False
                    end.
