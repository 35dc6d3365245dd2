(** Spec_Evolve.v -- two versions of a class, and a record of the later one that continues a record
    of the earlier one. *)
From Verif Require Import Base Py Select Filler Classes Spec_Classes Runtime Record Spec_Record Spec_Inst Spec_Copy Spec_Keywords.

Section Evolve.
Context {obj ty W : Type} (R : Rt obj ty W).
Notation cls := (@cls obj ty W).
Notation inst := (inst obj ty).

(** [c'] is a later version of [c]: it may have further fields, with a default value, and the fields
    [gone] are not there any more *)
Definition later_version (gone : list string) (c c' : cls) : Prop :=
  (forall k, In k gone -> ~ In k (keys (c_fields c'))) /\
  (forall k, In k (keys (c_fields c)) -> ~ In k gone -> In k (keys (c_fields c'))) /\
  (forall k f, dget k (c_fields c') = Some f -> ~ In k (keys (c_fields c)) -> exists d, f_default f = DefVal d).

(** a field with a default value keeps it in the later version *)
Definition defaults_kept (c c' : cls) : Prop :=
  forall k f f' d, dget k (c_fields c) = Some f -> dget k (c_fields c') = Some f' ->
  f_default f = DefVal d -> f_default f' = DefVal d.

(** a field with a default value still has one, perhaps another *)
Definition defaults_still (c c' : cls) : Prop :=
  forall k f f' d, dget k (c_fields c) = Some f -> dget k (c_fields c') = Some f' ->
  f_default f = DefVal d -> exists d', f_default f' = DefVal d'.

(** the data [d'] that arrives when [d] was sent: the same keys, and what the later version [c'] makes
    of a value is related by [Q] to the value sent *)
Definition arrives (Q : obj -> obj -> Prop) (c' : cls) (d d' : dict obj) : Prop :=
  dict_ok d' /\ (forall k, In k (keys d') <-> In k (keys d)) /\
  forall k v u, In k (keys (c_fields c')) -> dget k d = Some v -> dget k d' = Some u ->
  exists y, settled R c' k u (Ok y) /\ Q v y.

(** the fields of [c'] take the values that the record [i] of [c] has *)
Definition taken_over (Q : obj -> obj -> Prop) (c' : cls) (i : inst) : Prop :=
  forall k v, In k (keys (c_fields c')) -> dget k (i_dict i) = Some v ->
  exists y, settled R c' k v (Ok y) /\ Q v y.

(** the record [j] of [c'] continues the record [i] of [c]: a field of both has a value related by [Q]
    to that of [i]; a field that is new has its default *)
Definition continues (Q : obj -> obj -> Prop) (c c' : cls) (i j : inst) : Prop :=
  (forall k v, In k (keys (c_fields c)) -> In k (keys (c_fields c')) -> dget k (i_dict i) = Some v ->
     exists y, dget k (i_dict j) = Some y /\ Q v y) /\
  (forall k f d, dget k (c_fields c') = Some f -> ~ In k (keys (c_fields c)) -> f_default f = DefVal d ->
     dget k (i_dict j) = Some d).

(** the same or, for a value equal to the default of its field, that default *)
Definition or_equal (eqb : obj -> obj -> bool) (Q : obj -> obj -> Prop) (v y : obj) : Prop :=
  Q v y \/ eqb y v = true.

(** the record [j] of [c'] stems from the record [i] of [c]: a value that is not equal to its default is
    continued, one that is equal is replaced by the default that the field has in [c'], and a field
    that is new has its default *)
Definition stems_from (eqb : obj -> obj -> bool) (Q : obj -> obj -> Prop) (c c' : cls) (i j : inst) : Prop :=
  (forall k f f' v, dget k (c_fields c) = Some f -> dget k (c_fields c') = Some f' -> dget k (i_dict i) = Some v ->
     (forall d, f_default f = DefVal d -> eqb d v = false) -> exists y, dget k (i_dict j) = Some y /\ Q v y) /\
  (forall k f f' v d d', dget k (c_fields c) = Some f -> dget k (c_fields c') = Some f' -> dget k (i_dict i) = Some v ->
     f_default f = DefVal d -> eqb d v = true -> f_default f' = DefVal d' -> dget k (i_dict j) = Some d') /\
  (forall k f d, dget k (c_fields c') = Some f -> ~ In k (keys (c_fields c)) -> f_default f = DefVal d ->
     dget k (i_dict j) = Some d).

(** to_dict(include_defaults=True) *)
Definition with_defaults : export_args := ExportArgs true SortNone (BlackSet []) [].

(** Select(keys_to_maybe_remove=gone), Select(keys_to_remove=gone) *)
Definition forgetting (gone : list string) : sel obj :=
  sel_init (PIter (Reiter [])) (PIter (Reiter [])) (NIter (Reiter [])) (NIter (Reiter gone)) (PIter (Reiter [])) (PIter (Reiter [])).
Definition removing (gone : list string) : sel obj :=
  sel_init (PIter (Reiter [])) (PIter (Reiter [])) (NIter (Reiter gone)) (NIter (Reiter [])) (PIter (Reiter [])) (PIter (Reiter [])).
End Evolve.
