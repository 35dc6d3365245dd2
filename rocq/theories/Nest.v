(** Nest.v -- model of == and hash of records that contain records, with the slots in which
    frozen records keep their hash: RecordBase.__eq__ and __hash__, records/record.py:281-289
    and 411-420, and as much of _to_dict, 300-395, as they need.

    Objects are those of Deep.v.  Record.v takes == and hash of the values of one record as
    given, and C52 and C53 assume that they have no effect; here they are followed into the
    values, where comparing and hashing fills the slots of other records. *)
From Verif Require Import Base Deep.

(** what comes of a call: an answer, the TypeError of objects without hash, or RecursionError *)
Inductive answer (A : Type) := Gives (a : A) | Unhashable | TooDeep.
Arguments Gives {A}. Arguments Unhashable {A}. Arguments TooDeep {A}.

(** the slots _hash of the frozen records *)
Definition slots := nat -> option Z.
Definition N (A : Type) := slots -> answer A * slots.
Definition gives {A} (a : A) : N A := fun ks => (Gives a, ks).
Definition unhashable {A} : N A := fun ks => (Unhashable, ks).
Definition too_deep {A} : N A := fun ks => (TooDeep, ks).
Definition after {A B} (m : N A) (k : A -> N B) : N B := fun ks =>
  match m ks with
  | (Gives a, ks') => k a ks'
  | (Unhashable, ks') => (Unhashable, ks')
  | (TooDeep, ks') => (TooDeep, ks')
  end.

Section Nest.
Context (objects : list node)
        (atom_eq : nat -> nat -> bool)              (* == of objects that are none of these.
                                                       Simplification: it has no effect, and != is its negation *)
        (atom_hash : nat -> option Z)               (* their hash; None: TypeError *)
        (tuple_hash : list Z -> Z)                  (* hash of a tuple, from those of its elements *)
        (frozen : nat -> bool)                      (* is_frozen of a class *)
        (default : nat -> string -> option nat).    (* the default of a field; None: it has none, or a factory *)

Section Calls.
Context (eq : nat -> nat -> N bool) (hash : nat -> N Z).

(** the first pair that is not equal decides *)
Fixpoint pairs_equal (same : nat -> nat -> N bool) (xs ys : list nat) : N bool :=
  match xs, ys with
  | x :: xs, y :: ys => after (same x y) (fun b => if b then pairs_equal same xs ys else gives false)
  | _, _ => gives true
  end.
(** an element of a container: PyObject_RichCompareBool *)
Definition elements_same (x y : nat) : N bool := if Nat.eqb x y then gives true else eq x y.
(** dict_equal: for each key of the first, the value in the second is compared with that in the
    first *)
Fixpoint entries_equal (kvs kvs' : list (string * nat)) : N bool :=
  match kvs with
  | [] => gives true
  | (k, x) :: r => match dget k kvs' with
                   | None => gives false
                   | Some y => after (elements_same y x) (fun b => if b then entries_equal r kvs' else gives false)
                   end
  end.
(** hashes of the elements, one after the other *)
Fixpoint hash_all (xs : list nat) : N (list Z) :=
  match xs with
  | [] => gives []
  | x :: r => after (hash x) (fun h => after (hash_all r) (fun hs => gives (h :: hs)))
  end.
(** self.to_dict().values(), record.py:300-395, with is_default, field.py:84-92.
    Simplification: [fs] are the fields in field order, all of them present. *)
Fixpoint exported_values (c : nat) (fs : list (string * nat)) : N (list nat) :=
  match fs with
  | [] => gives []
  | (k, v) :: r =>
      after (match default c k with None => gives false | Some d => eq d v end)
        (fun b => after (exported_values c r) (fun vs => gives (if b then vs else v :: vs)))
  end.

(** hash(x); for records record.py:411-420.  Classes that are not frozen have no hash,
    record.py:138-144. *)
Definition hash_of (x : nat) : N Z :=
  match nth_error objects x with
  | None | Some NAtom => match atom_hash x with Some h => gives h | None => unhashable end
  | Some (NList _) | Some (NDict _) => unhashable
  | Some (NTuple xs) => after (hash_all xs) (fun hs => gives (tuple_hash hs))
  | Some (NRec c fs) =>
      if frozen c then
        fun ks => match ks x with
                  | Some h => (Gives h, ks)
                  | None => after (exported_values c fs) (fun vs => after (hash_all vs) (fun hs =>
                              fun ks' => (Gives (tuple_hash hs), fun z => if Nat.eqb z x then Some (tuple_hash hs) else ks' z))) ks
                  end
      else unhashable
  end.

(** x == y; for records record.py:281-289 *)
Definition equal_of (x y : nat) : N bool :=
  match nth_error objects x, nth_error objects y with
  | Some (NList xs), Some (NList ys) =>
      if Nat.eqb (List.length xs) (List.length ys) then pairs_equal elements_same xs ys else gives false
  | Some (NTuple xs), Some (NTuple ys) =>
      after (pairs_equal elements_same xs ys) (fun b => gives (b && Nat.eqb (List.length xs) (List.length ys))%bool)
  | Some (NDict kvs), Some (NDict kvs') =>
      if Nat.eqb (List.length kvs) (List.length kvs') then entries_equal kvs kvs' else gives false
  | Some (NRec c fs), Some (NRec d gs) =>
      if negb (Nat.eqb c d) then gives false
      else after (if frozen c then after (hash x) (fun h => after (hash y) (fun h' => gives (Z.eqb h h'))) else gives true)
             (fun b => if b then pairs_equal eq (map snd fs) (map snd gs) else gives false)
  | (None | Some NAtom), (None | Some NAtom) => gives (atom_eq x y)
  | _, _ => gives false
  end.
End Calls.

(** == and hash with a stack that is [fuel] calls deep *)
Fixpoint calls (fuel : nat) : (nat -> nat -> N bool) * (nat -> N Z) :=
  match fuel with
  | O => (fun _ _ => too_deep, fun _ => too_deep)
  | S n => (equal_of (fst (calls n)) (snd (calls n)), hash_of (fst (calls n)) (snd (calls n)))
  end.
Definition deep_equal (fuel : nat) : nat -> nat -> N bool := fst (calls fuel).
Definition deep_hash (fuel : nat) : nat -> N Z := snd (calls fuel).
End Nest.
