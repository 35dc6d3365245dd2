(** Spec_Deep.v -- what a copy of a structure is. *)
From Verif Require Import Base Deep.

Definition children (n : node) : list nat :=
  match n with
  | NAtom => []
  | NList xs | NTuple xs => xs
  | NDict kvs => map snd kvs
  | NRec _ fs => map snd fs
  end.

(** [b] is reached from [a] over one or more references *)
Inductive reaches (h : list node) : nat -> nat -> Prop :=
| reaches_step a n b : nth_error h a = Some n -> In b (children n) -> reaches h a b
| reaches_trans a n b c : nth_error h a = Some n -> In b (children n) -> reaches h b c -> reaches h a c.

(** all references are to objects there are *)
Definition closed (h : list node) : Prop :=
  forall a n b, nth_error h a = Some n -> In b (children n) -> b < List.length h.

(** objects that need not be copied: atoms, and tuples of such *)
Inductive inert (h : list node) : nat -> Prop :=
| inert_atom a : nth_error h a = Some NAtom -> inert h a
| inert_tuple a xs : nth_error h a = Some (NTuple xs) -> Forall (inert h) xs -> inert h a.

(** the same kind of object, with references that correspond *)
Inductive alike (rel : nat -> nat -> Prop) : node -> node -> Prop :=
| alike_list xs ys : Forall2 rel xs ys -> alike rel (NList xs) (NList ys)
| alike_tuple xs ys : Forall2 rel xs ys -> alike rel (NTuple xs) (NTuple ys)
| alike_dict ks xs ys : List.length ks = List.length xs -> Forall2 rel xs ys -> alike rel (NDict (combine ks xs)) (NDict (combine ks ys))
| alike_rec c ks xs ys : List.length ks = List.length xs -> Forall2 rel xs ys -> alike rel (NRec c (combine ks xs)) (NRec c (combine ks ys)).

(** [f] takes the structure at [x] in [h] to a copy of it in [h']: different objects have
    different copies, one copy each, which refer to each other as the originals do and are all
    new, except for inert objects, which stay *)
Record is_copy (h h' : list node) (x : nat) (f : nat -> nat) : Prop := {
  copy_inert : forall a, inert h a -> f a = a;
  copy_new : forall a, a = x \/ reaches h x a -> ~ inert h a ->
    List.length h <= f a /\ exists n n', nth_error h a = Some n /\ nth_error h' (f a) = Some n' /\ alike (fun b b' => b' = f b) n n';
  copy_apart : forall a b, a = x \/ reaches h x a -> b = x \/ reaches h x b -> f a = f b -> a = b;
  copy_kept : forall a n, nth_error h a = Some n -> nth_error h' a = Some n
}.

(** no record refers to itself over any number of references *)
Definition no_record_cycle (h : list node) : Prop :=
  forall a c fs, nth_error h a = Some (NRec c fs) -> ~ reaches h a a.
