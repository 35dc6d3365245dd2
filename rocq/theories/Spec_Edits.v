(** Spec_Edits.v -- Selects whose edits are optional or stand in another order, in the words of C175 and C176
    (the keyword arguments of Select, records/select.py:15-55). *)
From Verif Require Import Base Select Select_main.
Open Scope list_scope.

(** a Select of edits that need not find their keys: keys_to_maybe_remove, keys_to_maybe_rename and keys_to_maybe_add *)
Definition lenient {A} (s : sel A) : Prop := elements (s_rem s) = [] /\ elements (s_ren s) = [] /\ elements (s_add s) = [].
(** no name is both in a list of old and of new names: no old name is new again or added, no new name is removed *)
Definition one_way {A} (s : sel A) : Prop :=
  (forall k, In k (sources s) -> ~ In k (targets s) /\ ~ In k (added s)) /\ (forall k, In k (removed s) -> ~ In k (targets s)).

(** the same edits, in another order in each of the six arguments *)
Definition shuffled {A} (s s' : sel A) : Prop :=
  Permutation (elements (s_rem s)) (elements (s_rem s')) /\ Permutation (elements (s_mrem s)) (elements (s_mrem s')) /\
  Permutation (elements (s_ren s)) (elements (s_ren s')) /\ Permutation (elements (s_mren s)) (elements (s_mren s')) /\
  Permutation (elements (s_add s)) (elements (s_add s')) /\ Permutation (elements (s_madd s)) (elements (s_madd s')).
(** no chains in a list of renamings: no old name is a new name *)
Definition unchained (l : list (string * string)) : Prop := forall k, In k (map fst l) -> ~ In k (map snd l).
(** no key is optionally renamed or added twice *)
Definition chosen_once {A} (s : sel A) : Prop := NoDup (map fst (elements (s_mren s))) /\ NoDup (keys (elements (s_madd s))).
