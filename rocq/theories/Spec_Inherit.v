(** Spec_Inherit.v -- subclasses of a record class, and records that hold the same. *)
From Verif Require Import Base Py Filler Classes Runtime Record.

Section Inherit.
Context {obj ty W : Type} (R : Rt obj ty W).
Notation cls := (@cls obj ty W).
Notation base := (@base obj ty W).

(** [c] is the only record class among the bases; there may be other classes before and behind it *)
Definition only_base (c : cls) (bases : list base) : Prop := exists n m, bases = repeat BOther n ++ BRecord c :: repeat BOther m.

(** class T(..., c, ...): pass  -- a class statement that declares no fields and adds no tokens; all options are free *)
Definition bodyless (P : Py obj ty W) (c c' : cls) : Prop :=
  exists t fr ord un s inherited static bases parsers post, only_base c bases /\ (forall k f, In (k, f) (c_fields c) -> f_owner f <> t) /\
  make_class P (Decl t fr ord un s [] inherited static bases [] parsers post) = Ok c'.

(** all defaults of [c] are objects, not factories *)
Definition plain_defaults (c : cls) : Prop := forall k f g, dget k (c_fields c) = Some f -> f_default f <> DefFactory g.

(** two calls of two classes end alike: with the same error in the same state, or with new records whose attributes are the same
    objects; the states are the same but for the classes of the new records *)
Definition ends_alike (c c' : cls) (r r' : outcome obj * W) : Prop :=
  (exists e w, r = (Raise e, w) /\ r' = (Raise e, w)) \/
  (exists x y w d s s', r = (Ok x, set_heap R (heap R w ++ [Inst (c_ty c) d s]) w) /\ r' = (Ok y, set_heap R (heap R w ++ [Inst (c_ty c') d s']) w) /\
     lookup R (snd r) x = Some (Inst (c_ty c) d s) /\ lookup R (snd r') y = Some (Inst (c_ty c') d s')).
End Inherit.
