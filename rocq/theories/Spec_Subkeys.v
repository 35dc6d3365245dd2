(** Spec_Subkeys.v -- which part of an annotation a sub_key names.  Nothing here mentions
    fillers. *)
From Verif Require Import Base Py Filler Spec_Added Subkeys.

Section Subkeys.
Context {obj ty W : Type}.
Notation hint := (@hint obj ty W).

(** Unions and Tuples have members one can count; collections and mappings have parts with the
    fixed numbers 0 and 1. *)
Fixpoint has_members (h : hint) : bool :=
  match h with
  | HAnn h' _ => has_members h'
  | HNewType h' => match h' with HAnn _ _ => false | _ => has_members h' end
  | HUnion _ | HTupleN _ | HTupleV _ => true
  | _ => false
  end.

(** comparing the key with the number [z] gives [b]: None equals no number, ints compare as usual, any
    other object answers with its own == *)
Definition equals (k : subkey) (z : Z) (b : bool) : Prop :=
  match k with SkNone => b = false | SkInt y => b = true <-> y = z | SkObj e => e z = Ok b end.

(** The key [k] names the [i]-th of the parts: among members, if it is the int [i], or the
    negative int that counts to the same member from the end; otherwise, if it is equal to [i]
    and to no smaller number. *)
Definition names (h : hint) (k : subkey) (i : nat) : Prop :=
  i < List.length (parts h) /\
  if has_members h
  then exists z, k = SkInt z /\ (z = Z.of_nat i \/ z = Z.of_nat i - Z.of_nat (List.length (parts h)))%Z
  else equals k (Z.of_nat i) true /\ forall j, j < i -> equals k (Z.of_nat j) false.

(** the key [k] stands for the field itself, or for the part with the number in [p] *)
Definition stands_for (h : hint) (k : subkey) (p : option nat) : Prop :=
  match p with None => k = SkNone | Some i => names h k i end.

(** the key can be compared with numbers *)
Definition comparable (k : subkey) : Prop := forall z, exists b, equals k z b.

(** LookupError, or an exception of a subclass like IndexError *)
Definition is_lookup_error (e : exc) : bool :=
  descends_from (fun c => match c with LookupError => true | _ => false end) (exc_cls e).

End Subkeys.
