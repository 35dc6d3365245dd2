(** Sorting.v -- sorted(), min() and max() of records that are ordered
    (records/record.py:655-694, the comparisons of RecordBase).

    sorted(), min() and max() are Python's own, and only compare: sorted() asks [later < earlier],
    min() asks [next < least so far], max() asks [next > greatest so far].  The comparisons are
    [compare] of Record.v.  [sort] is the insertion sort that Python uses for short lists, without
    its binary search; longer lists are merged from such runs.  [follow] is any way of sorting by
    asking such questions; [c149_any_sort] shows that they all give the same. *)
From Verif Require Import Base Py Select Filler Classes Runtime Record.

Section Sorting.
Context {obj ty W : Type} (R : Rt obj ty W) (ctx : ty -> option (@cls obj ty W)).

(** [x] goes before the first record that it is less than -- records/record.py:672-676 *)
Fixpoint insert (x : obj) (l : list obj) : M W (list obj) :=
  match l with
  | [] => ret [x]
  | y :: r =>
      let* less := compare R ctx CLt x y in
      if less then ret (x :: y :: r)
      else let* r := insert x r in ret (y :: r)
  end.
Fixpoint insert_all (xs done : list obj) : M W (list obj) :=
  match xs with
  | [] => ret done
  | x :: r => let* done := insert x done in insert_all r done
  end.
(** sorted(l) *)
Definition sort (l : list obj) : M W (list obj) := insert_all l [].
(** sorted(l, reverse=True): Python reverses, sorts and reverses again *)
Definition sort_reverse (l : list obj) : M W (list obj) :=
  let* r := sort (rev l) in ret (rev r).

(** A way to sort: what to ask next, given the answers so far, and the list that comes out in the
    end *)
Inductive strategy :=
| Done (r : list obj)
| Ask (x y : obj) (yes no : strategy).
(** following it: each question [x < y] is a call of __lt__ -- records/record.py:672-676 *)
Fixpoint follow (s : strategy) : M W (list obj) :=
  match s with
  | Done r => ret r
  | Ask x y yes no => let* less := compare R ctx CLt x y in if less then follow yes else follow no
  end.

(** min(l) and max(l): the one so far is replaced if the next is less, or greater --
    records/record.py:672-676, 684-688 *)
Fixpoint best (op : cmp) (so_far : obj) (l : list obj) : M W obj :=
  match l with
  | [] => ret so_far
  | y :: r => let* better := compare R ctx op y so_far in best op (if better then y else so_far) r
  end.
Definition minimum (l : list obj) : M W obj :=
  match l with
  | [] => raise (mkexc ValueError "min() arg is an empty sequence")
  | x :: r => best CLt x r
  end.
Definition maximum (l : list obj) : M W obj :=
  match l with
  | [] => raise (mkexc ValueError "max() arg is an empty sequence")
  | x :: r => best CGt x r
  end.

End Sorting.
Arguments Done {obj}. Arguments Ask {obj}.
