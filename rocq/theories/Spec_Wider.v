(** Spec_Wider.v -- when one declaration of a field is more generous than another: it has
    fewer assertions, or more coercers after those of the other.  Nothing here mentions fillers. *)
From Verif Require Import Base Py Filler Spec_Filler Classes Spec_Settle.

Section Spec.
Context {obj ty W : Type} (P : Py obj ty W).
Notation token := (@token obj ty W).
Notation hint := (@hint obj ty W).

(** the tokens of one kind, in their order *)
Definition styles_of (ts : list token) : list token := filter (fun t => match t with TStyle _ => true | _ => false end) ts.
Definition coercions_of (ts : list token) : list token := filter is_coercion ts.
Definition validations_of (ts : list token) : list token := filter is_validation ts.

(** the second list is the first without some of its assertions *)
Inductive fewer_tests : list token -> list token -> Prop :=
| ft_nil : fewer_tests [] []
| ft_keep : forall t ts us, fewer_tests ts us -> fewer_tests (t :: ts) (t :: us)
| ft_drop : forall t ts us, testing t -> fewer_tests ts us -> fewer_tests (t :: ts) us.

(** the same type checking style, further coercers after the others, fewer assertions; the
    kinds of tokens may be mixed in any way, and other arguments of Annotated do not count *)
Definition generous (ts us : list token) : Prop :=
  styles_of us = styles_of ts /\
  (exists more, coercions_of us = coercions_of ts ++ more) /\
  fewer_tests (validations_of ts) (validations_of us).

(** neither a container nor a Union, nor annotated itself *)
Definition plain_hint (h : hint) : bool :=
  match h with HTy _ | HBare _ | HNone | HCallable | HAny | HLiteral _ _ | HType _ => true | _ => false end.

(** [wider h h']: [h'] is [h] with more generous tokens anywhere in it, but not on or inside Unions *)
Inductive wider : hint -> hint -> Prop :=
| w_same : forall h, wider h h
| w_plain : forall h ts us, plain_hint h = true -> generous ts us -> wider (HAnn h ts) (HAnn h us)
| w_iter : forall rk t h h' ts us, plain_class P t -> generous ts us -> wider h h' ->
    wider (HAnn (HIter rk t h) ts) (HAnn (HIter rk t h') us)
| w_tuple : forall h h' ts us, plain_class P (t_tuple P) -> generous ts us -> wider h h' ->
    wider (HAnn (HTupleV h) ts) (HAnn (HTupleV h') us)
| w_map : forall rk t hk hk' hv hv' ts us, plain_class P t -> generous ts us -> wider hk hk' -> wider hv hv' ->
    wider (HAnn (HMap rk t hk hv) ts) (HAnn (HMap rk t hk' hv') us)
| w_positions : forall hs hs' ts us, plain_class P (t_tuple P) -> generous ts us -> all_wider hs hs' ->
    wider (HAnn (HTupleN hs) ts) (HAnn (HTupleN hs') us)
| w_newtype : forall h h', annotated h = false -> annotated h' = false -> wider h h' -> wider (HNewType h) (HNewType h')
(** Annotated[T] without further arguments is T *)
| w_left : forall h h', wider (HAnn h []) h' -> wider h h'
| w_right : forall h h', wider h (HAnn h' []) -> wider h h'
with all_wider : list hint -> list hint -> Prop :=
| aw_nil : all_wider [] []
| aw_cons : forall h h' hs hs', wider h h' -> all_wider hs hs' -> all_wider (h :: hs) (h' :: hs').

(** the same field with a more generous declaration *)
Definition wider_field (f f' : @field obj ty W) : Prop :=
  f_name f' = f_name f /\ f_default f' = f_default f /\
  exists d h h', wider h h' /\ make_filler P d h [] = Ok (f_filler f) /\ make_filler P d h' [] = Ok (f_filler f').

(** the same class with more generous fields *)
Inductive wider_fields : dict (@field obj ty W) -> dict (@field obj ty W) -> Prop :=
| wf_nil : wider_fields [] []
| wf_cons : forall k f f' fs fs', wider_field f f' -> wider_fields fs fs' -> wider_fields ((k, f) :: fs) ((k, f') :: fs').
Definition with_fields (c : @cls obj ty W) (fs : dict (@field obj ty W)) : @cls obj ty W :=
  Cls (c_ty c) fs (c_field_dict c) (c_frozen c) (c_ordered c) (c_unary c) (c_style c) (c_parsers c) (c_post_new c).

End Spec.

(** what succeeds with [f] succeeds with [g], with the same result and the same effects *)
Definition extends {A B W} (f g : A -> M W B) : Prop :=
  forall x w y w', f x w = (Ok y, w') -> g x w = (Ok y, w').
