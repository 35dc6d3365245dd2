(** Subkeys.v -- the keys of sub-fillers: which part of a field's annotation a sub_key of any kind
    names (records/fillers/filler.py:87-96, builtin_fillers/typing_fillers.py:83-86, 227-230,
    294-297, 352-358), and the tokens added to that part (records/field.py:128-130). *)
From Verif Require Import Base Py Filler.
Open Scope string_scope.
Open Scope list_scope.

(** A key: None, an int (or a bool, which is one), or any other object; of that the fillers only
    ask whether it is equal to 0 or 1, and its == may raise.  Simplification: subclasses of int
    are taken to compare and index like the int they are. *)
Inductive subkey :=
| SkNone
| SkInt (z : Z)
| SkObj (equals : Z -> outcome bool).

(** [key == z] *)
Definition key_eq (k : subkey) (z : Z) : outcome bool :=
  match k with SkNone => Ok false | SkInt y => Ok (Z.eqb y z) | SkObj e => e z end.

(** IndexError, a subclass of LookupError: what a tuple raises when it is indexed out of range *)
Definition index_error : exc := mkexc (SubExc 0 [LookupError] CtorStr) "tuple index out of range".

(** [seq[z]] for a tuple of [n] elements: the position of the element, negative indices being
    counted from the end *)
Definition tuple_index (n : nat) (z : Z) : outcome nat :=
  let m := Z.of_nat n in
  if (0 <=? z)%Z then (if (z <? m)%Z then Ok (Z.to_nat z) else Raise index_error)
  else if (- m <=? z)%Z then Ok (Z.to_nat (z + m)) else Raise index_error.

Section Subkeys.
Context {obj ty W : Type} (P : Py obj ty W).
Notation token := (@token obj ty W).
Notation hint := (@hint obj ty W).
Notation filler := (@filler obj ty W).

(** Filler.sub_filler -- filler.py:87-96: the filler itself for None, LookupError otherwise.
    [None] stands for the filler itself, [Some i] for its [i]-th part. *)
Definition base_part (k : subkey) : outcome (option nat) :=
  match k with SkNone => Ok None | _ => Raise no_sub end.

(** sub_filler of each kind of filler: UnionFiller -- typing_fillers.py:83-86; TupleFiller --
    227-230, whose [sub_fillers] has one element for Tuple[X, ...]; GenericIterableFiller --
    294-297; GenericMappingFiller -- 352-358; all others inherit Filler.sub_filler *)
Definition part_named (f : filler) (k : subkey) : outcome (option nat) :=
  match f with
  | FUnion _ _ subs _ | FTupleN _ _ subs =>
      match k with SkInt z => do i <- tuple_index (List.length subs) z; Ok (Some i) | _ => base_part k end
  | FTupleV _ _ _ =>
      match k with SkInt z => do i <- tuple_index 1 z; Ok (Some i) | _ => base_part k end
  | FIter _ _ _ _ => do b <- key_eq k 0; if b then Ok (Some 0) else base_part k
  | FMap _ _ _ _ _ =>
      do b <- key_eq k 0; if b then Ok (Some 0) else
      do c <- key_eq k 1; if c then Ok (Some 1) else base_part k
  | _ => base_part k
  end.

(** [filler.sub_filler(key)] *)
Definition sub_filler_of (f : filler) (k : subkey) : outcome filler :=
  do p <- part_named f k; sub_filler f p.

(** RecordField._apply_to_filler(token, key) -- field.py:128-130: the filler of the field
    afterwards *)
Definition apply_to_filler (f : filler) (t : token) (k : subkey) : outcome filler :=
  do p <- part_named f k; apply_at P p t f.

(** the calls of add_validator, add_assert_validator and add_coercer in pre_bind, in order *)
Fixpoint apply_keyed (f : filler) (ops : list (subkey * token)) : outcome filler :=
  match ops with [] => Ok f | (k, t) :: r => do f1 <- apply_to_filler f t k; apply_keyed f1 r end.

(** How the filler of a field comes to be: RecordField.from_type_hint (field.py:122-123), the
    tokens its owner's pre_bind applies, and bind (record.py:135-138) *)
Definition make_keyed (dflt : style) (h : hint) (ops : list (subkey * token)) : outcome filler :=
  do f <- get_filler P h; do f1 <- apply_keyed f ops; bind_filler P dflt f1.

End Subkeys.
