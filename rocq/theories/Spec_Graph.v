(** Spec_Graph.v -- what equality and hashes of objects that refer to each other should be. *)
From Verif Require Import Base Deep Spec_Deep.
Open Scope string_scope. Open Scope list_scope.

Definition is_record (objects : list node) (x : nat) : Prop := exists c fs, nth_error objects x = Some (NRec c fs).
(** x refers to y directly *)
Definition refers (objects : list node) (x y : nat) : Prop := exists n, nth_error objects x = Some n /\ In y (children n).
(** no record refers to itself over records only: what they refer to is smaller in some measure *)
Definition no_chain_of_records (objects : list node) (rank : nat -> nat) : Prop :=
  forall x y, is_record objects x -> is_record objects y -> refers objects x y -> rank y < rank x.
(** [a] refers to [b] over records only, in one or more steps *)
Inductive over_records (objects : list node) : nat -> nat -> Prop :=
| records_step a b : is_record objects a -> is_record objects b -> refers objects a b -> over_records objects a b
| records_trans a b c : over_records objects a b -> over_records objects b c -> over_records objects a c.
Definition no_cycle (objects : list node) (rank : nat -> nat) : Prop :=
  forall x y, refers objects x y -> rank y < rank x.
(** records of one class have the same fields; dicts have each key once *)
Definition well_formed (objects : list node) : Prop :=
  (forall x y c fs gs, nth_error objects x = Some (NRec c fs) -> nth_error objects y = Some (NRec c gs) -> map fst fs = map fst gs) /\
  (forall x kvs, nth_error objects x = Some (NDict kvs) -> NoDup (map fst kvs)).

Definition other (objects : list node) (x : nat) : Prop := nth_error objects x = None \/ nth_error objects x = Some NAtom.

(** What repr should print: records as Name(field=value, ...), lists, tuples and dicts as
    Python does, with dots for those that are being printed ([opened]). *)
Inductive prints (objects : list node) (text class_name : nat -> string) : list nat -> nat -> string -> Prop :=
| print_other opened x : other objects x -> prints objects text class_name opened x (text x)%string
| print_list opened x xs ss : nth_error objects x = Some (NList xs) -> ~ In x opened ->
    Forall2 (prints objects text class_name (x :: opened)) xs ss ->
    prints objects text class_name opened x ("[" ++ String.concat ", " ss ++ "]")%string
| print_single opened x y s : nth_error objects x = Some (NTuple [y]) -> ~ In x opened ->
    prints objects text class_name (x :: opened) y s ->
    prints objects text class_name opened x ("(" ++ s ++ ",)")%string
| print_tuple opened x xs ss : nth_error objects x = Some (NTuple xs) -> List.length xs <> 1 -> ~ In x opened ->
    Forall2 (prints objects text class_name (x :: opened)) xs ss ->
    prints objects text class_name opened x ("(" ++ String.concat ", " ss ++ ")")%string
| print_dict opened x kvs ss : nth_error objects x = Some (NDict kvs) -> ~ In x opened ->
    Forall2 (fun kv s => exists t, prints objects text class_name (x :: opened) (snd kv) t /\ s = ("'" ++ fst kv ++ "': " ++ t)%string) kvs ss ->
    prints objects text class_name opened x ("{" ++ String.concat ", " ss ++ "}")%string
| print_list_again opened x xs : nth_error objects x = Some (NList xs) -> In x opened -> prints objects text class_name opened x "[...]"
| print_tuple_again opened x xs : nth_error objects x = Some (NTuple xs) -> In x opened -> prints objects text class_name opened x "(...)"
| print_dict_again opened x kvs : nth_error objects x = Some (NDict kvs) -> In x opened -> prints objects text class_name opened x "{...}"
| print_record opened x c fs ss : nth_error objects x = Some (NRec c fs) ->
    Forall2 (fun kv s => exists t, prints objects text class_name opened (snd kv) t /\ s = (fst kv ++ "=" ++ t)%string) fs ss ->
    prints objects text class_name opened x (class_name c ++ "(" ++ String.concat ", " ss ++ ")")%string.

(** What equality of objects should be: records are equal if they are of one class and all
    their fields are, lists and tuples if their elements are, one after the other, dicts if they
    have the same keys with equal values.  An element of a container equals itself. *)
Inductive equals (objects : list node) (atom_eq : nat -> nat -> bool) : nat -> nat -> Prop :=
| equal_others : forall x y, other objects x -> other objects y -> atom_eq x y = true -> equals objects atom_eq x y
| equal_lists : forall x y xs ys, nth_error objects x = Some (NList xs) -> nth_error objects y = Some (NList ys) ->
    Forall2 (fun a b => a = b \/ equals objects atom_eq a b) xs ys -> equals objects atom_eq x y
| equal_tuples : forall x y xs ys, nth_error objects x = Some (NTuple xs) -> nth_error objects y = Some (NTuple ys) ->
    Forall2 (fun a b => a = b \/ equals objects atom_eq a b) xs ys -> equals objects atom_eq x y
| equal_dicts : forall x y kvs kvs', nth_error objects x = Some (NDict kvs) -> nth_error objects y = Some (NDict kvs') ->
    List.length kvs = List.length kvs' ->
    (forall k a, In (k, a) kvs -> exists b, dget k kvs' = Some b /\ (b = a \/ equals objects atom_eq b a)) ->
    equals objects atom_eq x y
| equal_records : forall x y c fs gs, nth_error objects x = Some (NRec c fs) -> nth_error objects y = Some (NRec c gs) ->
    Forall2 (equals objects atom_eq) (map snd fs) (map snd gs) -> equals objects atom_eq x y.

(** ** Hashes *)
Section Hashes.
Context (objects : list node)
        (atom_eq : nat -> nat -> bool) (atom_hash : nat -> option Z)
        (tuple_hash : list Z -> Z)
        (frozen : nat -> bool)                      (* which classes are frozen *)
        (default : nat -> string -> option nat).    (* the default object of a field of a class *)

(** == of other objects is symmetric and transitive, and objects that are equal have the same
    hash, or none *)
Definition lawful_atoms : Prop :=
  (forall x y, atom_eq x y = true -> atom_eq y x = true) /\
  (forall x y z, atom_eq x y = true -> atom_eq y z = true -> atom_eq x z = true) /\
  (forall x y, atom_eq x y = true -> atom_hash x = atom_hash y).

(** the values of the fields [fs] of class [c] that are not equal to the default of their field *)
Inductive not_default (c : nat) : list (string * nat) -> list nat -> Prop :=
| nd_nil : not_default c [] []
| nd_kept k v fs vs : (forall d, default c k = Some d -> ~ equals objects atom_eq d v) ->
    not_default c fs vs -> not_default c ((k, v) :: fs) (v :: vs)
| nd_left_out k v d fs vs : default c k = Some d -> equals objects atom_eq d v ->
    not_default c fs vs -> not_default c ((k, v) :: fs) vs.

(** The hash of an object.  That of a tuple is made of the hashes of its elements, that of a
    frozen record of the hashes of the values that are not equal to the default of their field.
    Lists, dicts and other records have none. *)
Inductive hashes : nat -> Z -> Prop :=
| hash_other x h : other objects x -> atom_hash x = Some h -> hashes x h
| hash_tuple x xs hs : nth_error objects x = Some (NTuple xs) -> hashes_all xs hs -> hashes x (tuple_hash hs)
| hash_record x c fs vs hs : nth_error objects x = Some (NRec c fs) -> frozen c = true ->
    not_default c fs vs -> hashes_all vs hs -> hashes x (tuple_hash hs)
with hashes_all : list nat -> list Z -> Prop :=
| hashes_nil : hashes_all [] []
| hashes_cons x xs h hs : hashes x h -> hashes_all xs hs -> hashes_all (x :: xs) (h :: hs).

(** objects all of whose parts have a hash *)
Inductive hashable : nat -> Prop :=
| hashable_other x h : other objects x -> atom_hash x = Some h -> hashable x
| hashable_tuple x xs : nth_error objects x = Some (NTuple xs) -> Forall hashable xs -> hashable x
| hashable_record x c fs : nth_error objects x = Some (NRec c fs) -> frozen c = true -> Forall hashable (map snd fs) -> hashable x.
(** defaults, too, are smaller than the records of their class in the measure *)
Definition no_cycle_of_defaults (rank : nat -> nat) : Prop :=
  forall x c fs k d, nth_error objects x = Some (NRec c fs) -> default c k = Some d -> rank d < rank x.

(** what is in the slots for hashes are hashes *)
Definition right_caches (ks : nat -> option Z) : Prop := forall x h, ks x = Some h -> hashes x h.
(** a slot once filled stays as it is *)
Definition caches_kept (ks ks' : nat -> option Z) : Prop := forall x h, ks x = Some h -> ks' x = Some h.
End Hashes.
