(** Spec_Changes.v -- a record with some values changed, as cls.from_instance(x, **changes) should
    give it. *)
From Verif Require Import Base Py Select Filler Classes Runtime Record Spec_Keywords.

Section Changes.
Context {obj ty W : Type} (R : Rt obj ty W).
(** the fields take the values in [kw] and store those of [new], whatever the state *)
Definition taken_as (c : @cls obj ty W) (kw : dict obj) (new : string -> option obj) : Prop :=
  forall k, match dget k kw with
  | Some v => exists y, new k = Some y /\ settled R c k v (Ok y)
  | None => new k = None
  end.
(** [j] has the values of [new] and otherwise the very objects [i] has, or, if one is equal to
    the default of its field, the default *)
Definition changed (eqb : obj -> obj -> bool) (c : @cls obj ty W) (i : inst obj ty) (new : string -> option obj) (j : inst obj ty) : Prop :=
  forall k f v, dget k (c_fields c) = Some f -> dget k (i_dict i) = Some v ->
  match new k with
  | Some y => dget k (i_dict j) = Some y
  | None => dget k (i_dict j) = Some v \/ exists d, f_default f = DefVal d /\ eqb d v = true /\ dget k (i_dict j) = Some d
  end.
(** the fields that are not changed accept their values again and store them unchanged, except
    those equal to their default *)
Definition others_fixed (eqb : obj -> obj -> bool) (c : @cls obj ty W) (i : inst obj ty) (kw : dict obj) : Prop :=
  forall k f v, dget k (c_fields c) = Some f -> dget k kw = None -> dget k (i_dict i) = Some v ->
  (forall d, f_default f = DefVal d -> eqb d v = false) -> settled R c k v (Ok v).
(** [both] are the changes [kw] followed by the changes [kw'] *)
Definition one_after_other (kw kw' both : dict obj) : Prop :=
  forall k, dget k both = match dget k kw' with Some v => Some v | None => dget k kw end.
End Changes.
