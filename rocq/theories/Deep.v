(** Deep.v -- model of copy.deepcopy on structures of lists, tuples, dicts and records, with
    RecordBase.__deepcopy__, records/record.py:649-653, and its use of the memo.

    Record.v takes the copying of the values of one record as given; here structures with
    sharing and cycles are copied.  The algorithm of copy.deepcopy is that of the standard
    library (copy.py: deepcopy, _deepcopy_list, _deepcopy_tuple, _deepcopy_dict). *)
From Verif Require Import Base.

(** objects are numbers; what they are *)
Inductive node :=
| NAtom                                    (* int, str, functions, classes, ...: copied as themselves *)
| NList (xs : list nat)
| NTuple (xs : list nat)
| NDict (kvs : list (string * nat))        (* Simplification: keys are strings *)
| NRec (c : nat) (fs : list (string * nat)).

Section Deep.
(** the objects there are before the copying *)
Context (old : list node).

(** The memo: which copy an object has.  [used] says whether the dict has entries at all: it
    can have one for a dict that nobody else knows (see below).  [made]: the copies, object
    number [length old + i] being the i-th of them. *)
Record state := State { used : bool; memo : list (nat * nat); made : list node }.

Fixpoint assoc (x : nat) (l : list (nat * nat)) : option nat :=
  match l with
  | [] => None
  | (k, v) :: r => if Nat.eqb k x then Some v else assoc x r
  end.

Definition next (s : state) : nat := List.length old + List.length (made s).
(** a new object, and [memo[id(x)] = y] *)
Definition add_copy (x : nat) (n : node) (s : state) : state :=
  State true ((x, next s) :: memo s) (made s ++ [n]).
Fixpoint set_nth (i : nat) (n : node) (l : list node) : list node :=
  match l, i with
  | [], _ => []
  | _ :: r, O => n :: r
  | m :: r, S i => m :: set_nth i n r
  end.
(** the copy of a list or dict is in the memo first and is filled afterwards *)
Definition fill_copy (y : nat) (n : node) (s : state) : state :=
  State (used s) (memo s) (set_nth (y - List.length old) n (made s)).

Section Each.
Context (copy : nat -> state -> option (nat * state)).
Fixpoint each (xs : list nat) (s : state) : option (list nat * state) :=
  match xs with
  | [] => Some ([], s)
  | x :: r =>
      match copy x s with
      | None => None
      | Some (y, s1) => match each r s1 with Some (ys, s2) => Some (y :: ys, s2) | None => None end
      end
  end.
End Each.

Definition same_list (xs ys : list nat) : bool := if list_eq_dec Nat.eq_dec xs ys then true else false.

(** copy.deepcopy(x, memo); None is RecursionError.

    RecordBase.__deepcopy__, records/record.py:649-653: [memo = memo or {}] takes a new dict if
    the memo is empty, and what it learns is forgotten then; [deepcopy(self.to_dict(), memo)]
    enters the dict, which is new, in the memo and copies the values; [from_mapping] makes the
    record.  Simplification: to_dict exports all fields, and the fields store what they are
    given (see C76, C77 and Record.v for what else can happen). *)
Fixpoint dcopy (fuel : nat) (x : nat) (s : state) : option (nat * state) :=
  match fuel with
  | O => None
  | S n =>
      match assoc x (memo s) with
      | Some y => Some (y, s)
      | None =>
          match nth_error old x with
          | None | Some NAtom => Some (x, s)
          | Some (NList xs) =>
              match each (dcopy n) xs (add_copy x (NList []) s) with
              | Some (ys, s1) => Some (next s, fill_copy (next s) (NList ys) s1)
              | None => None
              end
          | Some (NDict kvs) =>
              match each (dcopy n) (map snd kvs) (add_copy x (NDict []) s) with
              | Some (ys, s1) => Some (next s, fill_copy (next s) (NDict (combine (map fst kvs) ys)) s1)
              | None => None
              end
          | Some (NTuple xs) =>
              match each (dcopy n) xs s with
              | Some (ys, s1) =>
                  match assoc x (memo s1) with
                  | Some y => Some (y, s1)
                  | None => if same_list xs ys then Some (x, s1) else Some (next s1, add_copy x (NTuple ys) s1)
                  end
              | None => None
              end
          | Some (NRec c fs) =>
              match each (dcopy n) (map snd fs) (State true (memo s) (made s)) with
              | Some (ys, s1) =>
                  let s2 := if used s then s1 else State false (memo s) (made s1) in
                  Some (next s1, add_copy x (NRec c (combine (map fst fs) ys)) s2)
              | None => None
              end
          end
      end
  end.

(** copy.deepcopy(x): the copy and all objects there are then *)
Definition deep_copy_of (fuel : nat) (x : nat) : option (nat * list node) :=
  match dcopy fuel x (State false [] []) with
  | Some (y, s) => Some (y, old ++ made s)
  | None => None
  end.
End Deep.
