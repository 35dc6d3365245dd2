(** Tags and the sets that hold them: records/tags.py, and how records/field.py and
    records/record.py use them.  Classes.v and Record.v know a Tag by a number; here a Tag
    is an object that holds an object with [==] and [hash], and tags are in hash tables. *)
From Verif Require Import Base.

Section Tags.
Context {tag obj : Type}.

(** What Python knows of tags and of the objects they hold: identity, the class of a Tag
    (Tag or a subclass of it), the object it holds (tags.py:9-10, self.inner), and [==] and
    [hash] of these objects ([None]: the object cannot be hashed).
    Simplification: [==] and [hash] of the objects answer the same at all times. *)
Record TagWorld := {
  tag_is : forall a b : tag, {a = b} + {a <> b};
  obj_is : forall a b : obj, {a = b} + {a <> b};
  kind : tag -> nat;
  held : tag -> obj;
  obj_eq : obj -> obj -> bool;
  obj_hash : obj -> option Z
}.
Context (K : TagWorld).

(** Tag.__eq__ -- records/tags.py:15-17 *)
Definition tag_eq (a b : tag) : bool := Nat.eqb (kind K b) (kind K a) && obj_eq K (held K a) (held K b).

(** Tag.__hash__ -- records/tags.py:12-13 *)
Definition tag_hash (a : tag) : option Z := obj_hash K (held K a).

(** ** Sets *)

(** what is in a set: a Tag, or (in a set that a user makes) any other object *)
Inductive item := ITag (t : tag) | IObj (o : obj).

Definition item_hash (i : item) : outcome Z :=
  match match i with ITag t => tag_hash t | IObj o => obj_hash K o end with
  | Some h => Ok h
  | None => Raise (mkexc TypeError "unhashable type")
  end.

(** [a == b] and [a is b].  A Tag is not equal to what is not a Tag (tags.py:16).
    Simplification: nor is the other object, if it is asked first. *)
Definition item_eq (a b : item) : bool :=
  match a, b with
  | ITag a, ITag b => tag_eq a b
  | IObj a, IObj b => obj_eq K a b
  | _, _ => false
  end.
Definition item_is (a b : item) : bool :=
  match a, b with
  | ITag a, ITag b => if tag_is K a b then true else false
  | IObj a, IObj b => if obj_is K a b then true else false
  | _, _ => false
  end.

(** a set of CPython: entries with the hash they had when they were added.  Where an entry
    is in the table has no effect that the library can see. *)
Definition pyset := list (Z * item).

(** set_lookkey of CPython: entries with this hash that are the key or equal to it *)
Definition holds (s : pyset) (h : Z) (k : item) : bool :=
  existsb (fun e => Z.eqb (fst e) h && (item_is (snd e) k || item_eq (snd e) k)) s.

(** [s.add(k)], [k in s] *)
Definition set_add (s : pyset) (k : item) : outcome pyset :=
  do h <- item_hash k; Ok (if holds s h k then s else s ++ [(h, k)]).
Definition set_contains (s : pyset) (k : item) : outcome bool :=
  do h <- item_hash k; Ok (holds s h k).

(** [{k1, ..., kn}] *)
Fixpoint set_of (s : pyset) (l : list item) : outcome pyset :=
  match l with
  | [] => Ok s
  | k :: r => do s' <- set_add s k; set_of s' r
  end.

(** [bool(a & b)]: set_intersection of CPython runs through the smaller set *)
Definition meets (a b : pyset) : bool :=
  let '(so, other) := if Nat.ltb (List.length a) (List.length b) then (b, a) else (a, b) in
  existsb (fun e => holds so (fst e) (snd e)) other.

(** ** Fields *)

(** an argument of Annotated: a Tag or anything else *)
Inductive mark := MTag (t : tag) | MOther.

(** the tags of a field: RecordField.__init__ and _apply, records/field.py:60, 124-125, 222-224 *)
Fixpoint field_tags (s : pyset) (l : list mark) : outcome pyset :=
  match l with
  | [] => Ok s
  | MTag t :: r => do s' <- set_add s (ITag t); field_tags s' r
  | MOther :: r => field_tags s r
  end.

(** the fields of a class with their tags, from those that are written *)
Fixpoint class_tags (l : dict (list mark)) : outcome (dict pyset) :=
  match l with
  | [] => Ok []
  | (k, ms) :: r => do s <- field_tags [] ms; do r' <- class_tags r; Ok ((k, s) :: r')
  end.

(** FieldDict.filter_by_tag -- records/field.py:232-239; the names of the fields *)
Fixpoint fields_with (fs : dict pyset) (t : tag) : outcome (list string) :=
  match fs with
  | [] => Ok []
  | (k, s) :: r => do b <- set_contains s (ITag t); do r' <- fields_with r t; Ok (if b then k :: r' else r')
  end.

(** the argument blacklist_tags of _to_dict -- records/record.py:302, 329-330: a Tag stands
    for the set of it alone *)
Inductive blacklisted := OneTag (t : tag) | SetOf (s : pyset).
Definition blacklist_set (b : blacklisted) : outcome pyset :=
  match b with OneTag t => set_of [] [ITag t] | SetOf s => Ok s end.

(** the fields that export_field lets through -- records/record.py:338-340 *)
Definition exported (fs : dict pyset) (white : list string) (b : blacklisted) : outcome (list string) :=
  do s <- blacklist_set b;
  Ok (keys (filter (fun kf => smem (fst kf) white || negb (meets (snd kf) s)) fs)).

End Tags.
Arguments TagWorld : clear implicits.
Arguments mark : clear implicits.
Arguments item : clear implicits.
Arguments blacklisted : clear implicits.
