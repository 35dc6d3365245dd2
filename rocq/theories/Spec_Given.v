(** Spec_Given.v -- containers and their elements. *)
From Verif Require Import Base Py Given.
Open Scope list_scope.

(** [in] tells whether something is one of [l], and does nothing else *)
Definition holds_names {W} (g : given string W) (l : list string) : Prop :=
  match g with
  | One a => l = [a]
  | Many c => forall k, exists b, c_in c k = ret b /\ (b = true <-> In k l)
  end.
(** [&] and bool() tell whether tags are in common with [l], and do nothing else *)
Definition meets_tags {W} (g : given nat W) (l : list nat) : Prop :=
  match g with
  | One a => l = [a]
  | Many c => forall s, exists b, c_and c s = ret b /\ (b = true <-> exists t, In t s /\ In t l)
  end.
