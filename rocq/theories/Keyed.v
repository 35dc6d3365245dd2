(** Keyed.v -- frozen records as the keys of a dict, or the members of a set
    (records/record.py:281-289 __eq__, 411-420 __hash__).

    The dict is Python's own: it stores, with every key, the hash that the key had when it was
    added, and a key is found if the stored hash is the hash of the key that is looked for, and
    the stored key is that very object or is equal to it ([stored == wanted]).  This is all of
    the dict that depends on the records: hash() and == are those of Record.v.

    Simplified: keys with the same hash are met in the order in which they were added (Python
    meets them in an order that depends on the size of the table); all keys are objects for
    which [record_eq] and [record_hash] are == and hash(). *)
From Verif Require Import Base Py Select Filler Classes Runtime Record.

Section Keyed.
Context {obj ty W : Type} (R : Rt obj ty W) (ctx : ty -> option (@cls obj ty W)) {V : Type}.
Notation P := (rt_py R).

(** the entries of a dict: hash, key and value *)
Definition table := list (Z * (obj * V)).

(** looking for a key with a hash: the position of its entry.  Stored hashes are compared
    first, then identity, then == (records/record.py:281-289), with the stored key on the left. *)
Fixpoint find (t : table) (h : Z) (k : obj) : M W (option nat) :=
  match t with
  | [] => ret None
  | (h', (k', _)) :: r =>
      let next := let* n := find r h k in ret (option_map S n) in
      if Z.eqb h' h then
        if py_is P k' k then ret (Some 0)
        else let* same := record_eq R ctx k' k in
             if same then ret (Some 0) else next
      else next
  end.

(** d.get(k): hash(k) (records/record.py:411-420), then the value of the entry, if there is one *)
Definition get (t : table) (k : obj) : M W (option V) :=
  let* h := record_hash R ctx k in
  let* n := find t h k in
  ret (match n with Some n => option_map (fun e => snd (snd e)) (nth_error t n) | None => None end).

(** d[k] = v: the entry that is found gets the value and keeps its key; otherwise there is a new entry *)
Definition put (t : table) (k : obj) (v : V) : M W table :=
  let* h := record_hash R ctx k in
  let* n := find t h k in
  ret (match n with
       | Some n => match nth_error t n with
                   | Some (h', (k', _)) => firstn n t ++ (h', (k', v)) :: skipn (S n) t
                   | None => t
                   end
       | None => t ++ [(h, (k, v))]
       end).

(** d.pop(k, None): the value of the entry, which is removed *)
Definition pop (t : table) (k : obj) : M W (option V * table) :=
  let* h := record_hash R ctx k in
  let* n := find t h k in
  ret (match n with
       | Some n => (option_map (fun e => snd (snd e)) (nth_error t n), firstn n t ++ skipn (S n) t)
       | None => (None, t)
       end).

End Keyed.
