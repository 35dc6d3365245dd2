(** Spec_Keywords.v -- what it means that filling one field does not influence filling another one. *)
From Verif Require Import Base Py Select Filler Classes Runtime Record.

Section Keywords.
Context {obj ty W : Type} (R : Rt obj ty W).
(** if [g] and then [h] succeed, then they do so in the other order, with the same results and
    the same effects *)
Definition may_swap (g h : M W obj) : Prop :=
  forall w a w1 b w2, g w = (Ok a, w1) -> h w1 = (Ok b, w2) -> exists w', h w = (Ok b, w') /\ g w' = (Ok a, w2).
(** filling the field [k] of [c] with [v] *)
Definition filling (c : @cls obj ty W) (k : string) (v : obj) (g : M W obj) : Prop :=
  exists f, dget k (c_fields c) = Some f /\ g = call (rt_py R) (f_filler f) v.
(** filling one field with its keyword does not influence filling the others with theirs *)
Definition separate (c : @cls obj ty W) (kw : dict obj) : Prop :=
  forall k v g k' v' h, In (k, v) kw -> In (k', v') kw -> k <> k' -> filling c k v g -> filling c k' v' h -> may_swap g h.
(** the field [k] takes or refuses [v] whatever the state, without other effects *)
Definition settled (c : @cls obj ty W) (k : string) (v : obj) (r : outcome obj) : Prop :=
  exists g, filling c k v g /\ forall w, g w = (r, w).
End Keywords.
