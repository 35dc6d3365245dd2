(** Spec_Copy.v -- what it means to restore a record from an export of it. *)
From Verif Require Import Base Py Select Filler Classes Runtime Record Spec_Record Spec_Inst.

Section Spec.
Context {obj ty W : Type} (R : Rt obj ty W).
Notation P := (rt_py R).
Notation cls := (@cls obj ty W).
Notation inst := (inst obj ty).
Context (ctx : ty -> option cls).

(** the values of [i] and the defaults of [c] keep Python's contracts for ==, and for hash
    if [c] is frozen *)
Definition comparable (D : obj -> Prop) (eqb : obj -> obj -> bool) (hf : obj -> Z) (c : cls) (i : inst) : Prop :=
  has_eq R D eqb /\ equivalence D eqb /\ defaults_in D c /\ values_in D c i /\
  (c_frozen c = true ->
     hash_contract D eqb hf /\ hashable R hf c i /\ cache_ok R eqb hf c i /\
     forall k f d w, dget k (c_fields c) = Some f -> f_default f = DefVal d -> v_hash R d w = (Ok (hf d), w)).

(** the fillers of [c] turn each value in [d] into a value equal to the one [i] has *)
Definition restores (D : obj -> Prop) (eqb : obj -> obj -> bool) (hf : obj -> Z) (c : cls) (i : inst) (d : dict obj) : Prop :=
  forall k f u v, dget k (c_fields c) = Some f -> dget k d = Some u -> dget k (i_dict i) = Some v ->
  exists y, (forall w, call P (f_filler f) u w = (Ok y, w)) /\ D y /\ eqb v y = true /\
            (c_frozen c = true -> forall w, v_hash R y w = (Ok (hf y), w)).

(** for every value in [d], [j] has what the filler makes of it, or the default of the field *)
Definition refilled (c : cls) (d : dict obj) (j : inst) : Prop :=
  forall k f u, dget k (c_fields c) = Some f -> dget k d = Some u ->
  (exists y, dget k (i_dict j) = Some y /\ forall w, call P (f_filler f) u w = (Ok y, w)) \/
  (exists v, f_default f = DefVal v /\ dget k (i_dict j) = Some v).

(** [y] is in [w'] a new instance of the class of [x], no instance has changed since [w],
    and [x == y] *)
Definition equal_copy (c : cls) (w w' : W) (x y : obj) : Prop :=
  (exists j, fresh_instance R ctx c w w' y j) /\ all_kept R w w' /\
  exists w'', record_eq R ctx x y w' = (Ok true, w'') /\ fields_kept R w' w''.

End Spec.

(** [v] has in state [w], of the names that satisfy [N], exactly the attributes in [d] *)
Definition has_attributes {obj ty W} (R : Rt obj ty W) (w : W) (N : string -> Prop) (v : obj) (d : dict obj) : Prop :=
  forall k, N k ->
  match dget k d with
  | Some a => getattr R v k w = (Ok a, w)
  | None => exists m, getattr R v k w = (Raise (mkexc AttributeError m), w)
  end.
