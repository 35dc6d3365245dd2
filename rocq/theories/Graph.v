(** Graph.v -- model of repr and == of records, lists, tuples and dicts that refer to each
    other, also in cycles: RecordBase.__repr__ and __eq__, records/record.py:269-289.

    Objects are those of Deep.v.  Record.v takes repr and == of the values of one record as
    given; here they are followed into the values.  How lists, tuples and dicts are printed and
    compared is that of CPython (listobject.c, tupleobject.c, dictobject.c): while a container
    is printed, the same container prints as "[...]", "(...)" or "{...}", and elements that are
    the same object count as equal.  None is RecursionError. *)
From Verif Require Import Base Deep.
Open Scope string_scope. Open Scope list_scope.

Section Graph.
Context (objects : list node)
        (text : nat -> string)          (* repr of objects that are none of these *)
        (class_name : nat -> string)    (* __qualname__ *)
        (atom_eq : nat -> nat -> bool). (* == of objects that are none of these, e.g. not reflexive for nan.
                                           Simplification: != is its negation *)

Fixpoint joined (l : list string) : string :=
  match l with
  | [] => ""
  | [s] => s
  | s :: r => (s ++ ", " ++ joined r)%string
  end.

Section All.
Context (show : nat -> option string).
Fixpoint show_all (xs : list nat) : option (list string) :=
  match xs with
  | [] => Some []
  | x :: r => match show x with
              | None => None
              | Some s => match show_all r with Some l => Some (s :: l) | None => None end
              end
  end.
End All.

(** [name=value], record.py:276-277; ['key': value] of dicts *)
Definition named (sep : string) (keys vals : list string) : list string :=
  map (fun p : string * string => (fst p ++ sep ++ snd p)%string) (combine keys vals).

Definition busy (x : nat) (active : list nat) : bool := existsb (Nat.eqb x) active.

(** repr(x); [active] are the containers that are being printed (Py_ReprEnter).
    __repr__ of records, record.py:269-279, enters nothing.  Simplification: [fs] are the fields
    that to_dict exports (see C94 for which these are). *)
Fixpoint show (fuel : nat) (active : list nat) (x : nat) : option string :=
  match fuel with
  | O => None
  | S n =>
      match nth_error objects x with
      | None | Some NAtom => Some (text x)
      | Some (NList xs) =>
          if busy x active then Some "[...]"
          else match show_all (show n (x :: active)) xs with
               | Some l => Some ("[" ++ joined l ++ "]")%string
               | None => None
               end
      | Some (NTuple xs) =>
          if busy x active then Some "(...)"
          else match show_all (show n (x :: active)) xs with
               | Some [s] => Some ("(" ++ s ++ ",)")%string
               | Some l => Some ("(" ++ joined l ++ ")")%string
               | None => None
               end
      | Some (NDict kvs) =>
          if busy x active then Some "{...}"
          else match show_all (show n (x :: active)) (map snd kvs) with
               | Some l => Some ("{" ++ joined (named ": " (map (fun kv => "'" ++ fst kv ++ "'") kvs) l) ++ "}")%string
               | None => None
               end
      | Some (NRec c fs) =>
          match show_all (show n active) (map snd fs) with
          | Some l => Some (class_name c ++ "(" ++ joined (named "=" (map fst fs) l) ++ ")")%string
          | None => None
          end
      end
  end.

Section Pairs.
Context (eq : nat -> nat -> option bool).
(** the first pair that is not equal decides *)
Fixpoint all_equal (xs ys : list nat) : option bool :=
  match xs, ys with
  | x :: xs, y :: ys => match eq x y with
                        | Some true => all_equal xs ys
                        | Some false => Some false
                        | None => None
                        end
  | _, _ => Some true
  end.
(** an element of a container: PyObject_RichCompareBool *)
Definition element_equal (x y : nat) : option bool := if Nat.eqb x y then Some true else eq x y.
(** dict_equal: for each key of the first, the value in the second is compared with that in the
    first *)
Fixpoint items_equal (kvs kvs' : list (string * nat)) : option bool :=
  match kvs with
  | [] => Some true
  | (k, x) :: r => match dget k kvs' with
                   | None => Some false
                   | Some y => match element_equal y x with
                               | Some true => items_equal r kvs'
                               | Some false => Some false
                               | None => None
                               end
                   end
  end.
End Pairs.

Definition and_then (o : option bool) (b : bool) : option bool :=
  match o with Some true => Some b | _ => o end.

(** x == y.  __eq__ of records, record.py:281-289, compares all fields with !=, also those
    whose values are the same object.  Simplification: the records are not frozen (frozen ones
    compare hashes first, see C52 to C54); records of one class have the same fields in the same
    order (C20). *)
Fixpoint equal (fuel : nat) (x y : nat) : option bool :=
  match fuel with
  | O => None
  | S n =>
      match nth_error objects x, nth_error objects y with
      | Some (NList xs), Some (NList ys) =>
          if Nat.eqb (List.length xs) (List.length ys) then all_equal (element_equal (equal n)) xs ys else Some false
      | Some (NTuple xs), Some (NTuple ys) =>
          and_then (all_equal (element_equal (equal n)) xs ys) (Nat.eqb (List.length xs) (List.length ys))
      | Some (NDict kvs), Some (NDict kvs') =>
          if Nat.eqb (List.length kvs) (List.length kvs') then items_equal (equal n) kvs kvs' else Some false
      | Some (NRec c fs), Some (NRec d gs) =>
          if Nat.eqb c d then all_equal (equal n) (map snd fs) (map snd gs) else Some false
      | (None | Some NAtom), (None | Some NAtom) => Some (atom_eq x y)
      | _, _ => Some false
      end
  end.
End Graph.
