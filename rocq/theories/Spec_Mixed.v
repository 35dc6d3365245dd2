(** Spec_Mixed.v -- the same annotation with tokens of different kinds in another order. *)
From Verif Require Import Base Py Filler Classes.

Section Mixed.
Context {obj ty W : Type}.
Notation token := (@token obj ty W).
Notation hint := (@hint obj ty W).

(** the two tokens are of different kinds: type checking styles, coercers, validators and assertions, others *)
Definition other_kind (t u : token) : Prop :=
  match t, u with
  | TStyle _, TStyle _ | TCoerce _, TCoerce _ | TValid _, TValid _ | TOther, TOther => False
  | _, _ => True
  end.

(** the same tokens, those of each kind in the same order *)
Inductive mixed : list token -> list token -> Prop :=
| m_same : forall l, mixed l l
| m_behind : forall t l l', mixed l l' -> mixed (t :: l) (t :: l')
| m_swap : forall t u l, other_kind t u -> mixed (t :: u :: l) (u :: t :: l)
| m_again : forall l1 l2 l3, mixed l1 l2 -> mixed l2 l3 -> mixed l1 l3.

(** annotations without parts *)
Definition simple_hint (h : hint) : bool :=
  match h with HTy _ | HBare _ | HNone | HCallable | HAny | HLiteral _ _ | HType _ | HOther => true | _ => false end.

(** [rearranged h h']: the same annotation, where the arguments of any Annotated in it may be mixed in another way *)
Inductive rearranged : hint -> hint -> Prop :=
| r_simple : forall h, simple_hint h = true -> rearranged h h
| r_ann : forall h h' ts us, mixed ts us -> rearranged h h' -> rearranged (HAnn h ts) (HAnn h' us)
| r_newtype : forall h h', rearranged h h' -> rearranged (HNewType h) (HNewType h')
| r_union : forall hs hs', all_rearranged hs hs' -> rearranged (HUnion hs) (HUnion hs')
| r_tuple : forall hs hs', all_rearranged hs hs' -> rearranged (HTupleN hs) (HTupleN hs')
| r_generic : forall t hs hs', all_rearranged hs hs' -> rearranged (HGenN t hs) (HGenN t hs')
| r_tuples : forall h h', rearranged h h' -> rearranged (HTupleV h) (HTupleV h')
| r_iter : forall rk t h h', rearranged h h' -> rearranged (HIter rk t h) (HIter rk t h')
| r_map : forall rk t hk hk' hv hv', rearranged hk hk' -> rearranged hv hv' -> rearranged (HMap rk t hk hv) (HMap rk t hk' hv')
with all_rearranged : list hint -> list hint -> Prop :=
| ar_nil : all_rearranged [] []
| ar_cons : forall h h' hs hs', rearranged h h' -> all_rearranged hs hs' -> all_rearranged (h :: hs) (h' :: hs').
End Mixed.

Section Records.
Context {obj ty W : Type} (P : Py obj ty W).

(** the same field, declared with the same annotation with its tokens mixed in another way *)
Definition rearranged_field (f f' : @field obj ty W) : Prop :=
  f_name f' = f_name f /\ f_default f' = f_default f /\ f_owner f' = f_owner f /\ f_tags f' = f_tags f /\
  exists d h h', rearranged h h' /\ make_filler P d h [] = Ok (f_filler f) /\ make_filler P d h' [] = Ok (f_filler f').

Inductive rearranged_fields : dict (@field obj ty W) -> dict (@field obj ty W) -> Prop :=
| rf_nil : rearranged_fields [] []
| rf_cons : forall k f f' fs fs', rearranged_field f f' -> rearranged_fields fs fs' -> rearranged_fields ((k, f) :: fs) ((k, f') :: fs').
End Records.
