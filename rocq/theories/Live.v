(** Live.v -- Selects made from lists that the program changes afterwards.  Select.__init__
    (records/select.py:15-55) copies mappings and strings into tuples (35-46) and keeps other
    iterables as they are; here lists are objects of their own. *)
From Verif Require Import Base Select.

Section Live.
Context {A : Type}.

(** the lists of the program: what each holds now *)
Record lists_now := Lists {
  pairs_at : nat -> list (string * A);
  names_at : nat -> list string;
  renames_at : nat -> list (string * string)
}.

(** what an attribute of a Select is: a tuple, or a list of the program *)
Inductive src (X : Type) := Tuple (l : list X) | ListAt (n : nat).
Arguments Tuple {X}.
Arguments ListAt {X}.
Definition read {X} (at_ : nat -> list X) (s : src X) : list X := match s with Tuple l => l | ListAt n => at_ n end.

(** a Select: its six attributes and the cached truth -- records/select.py:47-55 *)
Record live := Live {
  l_add : src (string * A);
  l_madd : src (string * A);
  l_rem : src string;
  l_mrem : src string;
  l_ren : src (string * string);
  l_mren : src (string * string);
  l_bool : option bool
}.

(** the arguments of Select: a mapping or tuple of pairs, a tuple of names or one name, or a list *)
Inductive given (X : Type) := GivenTuple (l : list X) | GivenStr (s : X) | GivenList (n : nat).
Arguments GivenTuple {X}.
Arguments GivenStr {X}.
Arguments GivenList {X}.

(** records/select.py:35-55 *)
Definition keep {X} (g : given X) : src X :=
  match g with GivenTuple l => Tuple l | GivenStr s => Tuple [s] | GivenList n => ListAt n end.
Definition new_live (a ma : given (string * A)) (r mr : given string) (n mn : given (string * string)) : live :=
  Live (keep a) (keep ma) (keep r) (keep mr) (keep n) (keep mn) None.

(** the Select as it acts now *)
Definition now (h : lists_now) (s : live) : sel A :=
  Sel (Reiter (read (pairs_at h) (l_add s))) (Reiter (read (pairs_at h) (l_madd s)))
      (Reiter (read (names_at h) (l_rem s))) (Reiter (read (names_at h) (l_mrem s)))
      (Reiter (read (renames_at h) (l_ren s))) (Reiter (read (renames_at h) (l_mren s))) (l_bool s).

Definition with_bool (s : live) (b : option bool) : live :=
  Live (l_add s) (l_madd s) (l_rem s) (l_mrem s) (l_ren s) (l_mren s) b.

(** a Select that is the result of merging: all tuples *)
Definition from_sel (s : sel A) : live :=
  Live (Tuple (elements (s_add s))) (Tuple (elements (s_madd s))) (Tuple (elements (s_rem s)))
       (Tuple (elements (s_mrem s))) (Tuple (elements (s_ren s))) (Tuple (elements (s_mren s))) (s_bool s).

(** what a program does: change its lists in any way, make a Select, ask a Select for its truth,
    apply it, merge two.  (Bound factories and exporters do the last three.) *)
Inductive step :=
| Change (h : lists_now)
| New (a ma : given (string * A)) (r mr : given string) (n mn : given (string * string))
| Ask (i : nat)
| Use (i : nat) (d : dict A)
| Merge (i j : nat).

Fixpoint set_nth (i : nat) (s : live) (l : list live) : list live :=
  match l, i with
  | [], _ => []
  | _ :: r, O => s :: r
  | x :: r, S i => x :: set_nth i s r
  end.

Definition state := (lists_now * list live)%type.
Definition asked (i : nat) (b : option bool) (l : list live) : list live :=
  match nth_error l i with Some s => set_nth i (with_bool s b) l | None => l end.

(** one step; merging (records/select.py:57-69) makes a new Select only if both are true *)
Definition do_step (st : state) (x : step) : state :=
  let '(h, l) := st in
  match x with
  | Change h' => (h', l)
  | New a ma r mr n mn => (h, l ++ [new_live a ma r mr n mn])
  | Ask i => match nth_error l i with
             | Some s => (h, asked i (s_bool (snd (sel_truth (now h s)))) l)
             | None => st
             end
  | Use i d => match nth_error l i with
               | Some s => (h, asked i (s_bool (snd (sel_call (now h s) d))) l)
               | None => st
               end
  | Merge i j =>
      match nth_error l i, nth_error l j with
      | Some s, Some t =>
          let '(r, (s', t')) := sel_merge2 (now h s) (now h t) in
          let l' := asked j (s_bool t') (asked i (s_bool s') l) in
          (h, if fst (sel_truth (now h s)) && fst (sel_truth (now h t)) then l' ++ [from_sel r] else l')
      | _, _ => st
      end
  end.
Definition steps (st : state) (xs : list step) : state := fold_left do_step xs st.

(** what applying a Select to a mapping gives, at some time *)
Definition effect (st : state) (i : nat) (d : dict A) : option (outcome (dict A)) :=
  match nth_error (snd st) i with Some s => Some (sel_apply (now (fst st) s) d) | None => None end.

End Live.
Arguments lists_now : clear implicits.
Arguments live : clear implicits.
Arguments step : clear implicits.
Arguments state : clear implicits.
Arguments Tuple {X}.
Arguments ListAt {X}.
Arguments GivenTuple {X}.
Arguments GivenStr {X}.
Arguments GivenList {X}.
