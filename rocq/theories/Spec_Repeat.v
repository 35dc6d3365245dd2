(** Spec_Repeat.v -- annotations that say something twice. *)
From Verif Require Import Base Py Filler Classes Spec_Mixed.

Section Repeat.
Context {obj ty W : Type} (P : Py obj ty W).
Notation token := (@token obj ty W).
Notation hint := (@hint obj ty W).
Notation callback := (@callback obj W).

(** the result of [f] is a result of [f] for itself, without further effects *)
Definition keeps_results (f : callback) : Prop := forall x w y w1, f x w = (Ok y, w1) -> f y w1 = (Ok y, w1).
(** what [f] refused it refuses again, with the same error and without further effects *)
Definition keeps_refusing (f : callback) : Prop := forall x w e w1, f x w = (Raise e, w1) -> f x w1 = (Raise e, w1).

(** to call what the token gives again right after it returned or failed changes nothing *)
Definition settled (t : token) : Prop :=
  match t with
  | TStyle _ | TOther => True
  | TCoerce c => forall k f, get_coercer P k c = Ok f -> keeps_results f /\ keeps_refusing f
  | TValid v => forall k f, get_validator P k v = Ok f -> keeps_results f
  end.

(** the same tokens but for repetitions of settled ones, styles that are overridden later, and the way the kinds are mixed *)
Inductive repeated : list token -> list token -> Prop :=
| rp_same : forall l, repeated l l
| rp_behind : forall t l l', repeated l l' -> repeated (t :: l) (t :: l')
| rp_twice : forall t l, settled t -> repeated (t :: t :: l) (t :: l)
| rp_styles : forall s s' l, repeated (TStyle s :: TStyle s' :: l) (TStyle s' :: l)
| rp_swap : forall t u l, other_kind t u -> repeated (t :: u :: l) (u :: t :: l)
| rp_sym : forall l l', repeated l l' -> repeated l' l
| rp_again : forall l1 l2 l3, repeated l1 l2 -> repeated l2 l3 -> repeated l1 l3.

(** the same annotation, but for such differences in any Annotated in it *)
Inductive abridged : hint -> hint -> Prop :=
| ab_simple : forall h, simple_hint h = true -> abridged h h
| ab_ann : forall h h' ts us, repeated ts us -> abridged h h' -> abridged (HAnn h ts) (HAnn h' us)
| ab_newtype : forall h h', abridged h h' -> abridged (HNewType h) (HNewType h')
| ab_union : forall hs hs', all_abridged hs hs' -> abridged (HUnion hs) (HUnion hs')
| ab_tuple : forall hs hs', all_abridged hs hs' -> abridged (HTupleN hs) (HTupleN hs')
| ab_generic : forall t hs hs', all_abridged hs hs' -> abridged (HGenN t hs) (HGenN t hs')
| ab_tuples : forall h h', abridged h h' -> abridged (HTupleV h) (HTupleV h')
| ab_iter : forall rk t h h', abridged h h' -> abridged (HIter rk t h) (HIter rk t h')
| ab_map : forall rk t hk hk' hv hv', abridged hk hk' -> abridged hv hv' -> abridged (HMap rk t hk hv) (HMap rk t hk' hv')
with all_abridged : list hint -> list hint -> Prop :=
| aab_nil : all_abridged [] []
| aab_cons : forall h h' hs hs', abridged h h' -> all_abridged hs hs' -> all_abridged (h :: hs) (h' :: hs').

(** the same field, declared with the same annotation but for such differences *)
Definition abridged_field (f f' : @field obj ty W) : Prop :=
  f_name f' = f_name f /\ f_default f' = f_default f /\ f_owner f' = f_owner f /\ f_tags f' = f_tags f /\
  exists d h h', abridged h h' /\ make_filler P d h [] = Ok (f_filler f) /\ make_filler P d h' [] = Ok (f_filler f').

Inductive abridged_fields : dict (@field obj ty W) -> dict (@field obj ty W) -> Prop :=
| abf_nil : abridged_fields [] []
| abf_cons : forall k f f' fs fs', abridged_field f f' -> abridged_fields fs fs' -> abridged_fields ((k, f) :: fs) ((k, f') :: fs').
End Repeat.
