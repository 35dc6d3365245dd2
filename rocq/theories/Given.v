(** Given.v -- the arguments blacklist_tags and whitelist_keys of _to_dict as the objects that they
    are (records/record.py:300-344): what is not a Tag or a str is asked with [in], [&] and bool().

    Record.v takes a whitelist as the list of its names, and a blacklist as a set of tags or
    something that can not be intersected with one. *)
From Verif Require Import Base Py Select Filler Classes Runtime Record.
Open Scope string_scope.
Open Scope list_scope.

(** a container: [k in c], and [bool(s & c)] for a frozenset [s] *)
Record container (A W : Type) := Container {
  c_in : A -> M W bool;
  c_and : list A -> M W bool
}.
Arguments Container {A W}.
Arguments c_in {A W}.
Arguments c_and {A W}.

(** sets, frozensets and key views of dicts *)
Definition set_of {A W} (eqb : A -> A -> bool) (l : list A) : container A W := {|
  c_in := fun k => ret (existsb (eqb k) l);
  c_and := fun s => ret (existsb (fun t => existsb (eqb t) l) s)
|}.
(** lists, tuples, dicts and all other classes with [in] that do not know [&]: set.__and__ gives
    NotImplemented for them *)
Definition seq_of {A W} (isin : A -> M W bool) : container A W := {|
  c_in := isin;
  c_and := fun _ => raise (mkexc TypeError "unsupported operand type(s) for &")
|}.

(** records/record.py:328-331: a single Tag or str stands for the set of it *)
Inductive given (A W : Type) := One (a : A) | Many (c : container A W).
Arguments One {A W}.
Arguments Many {A W}.
Definition normal {A W} (eqb : A -> A -> bool) (g : given A W) : container A W :=
  match g with One a => set_of eqb [a] | Many c => c end.

Section Given.
Context {obj ty W : Type} (R : Rt obj ty W).
Notation cls := (@cls obj ty W).
Notation xfield := (@xfield obj W).
Context (defaults : bool) (black : container nat W) (white : container string W).

(** export_field, records/record.py:338-340 *)
Definition export_field_g (f : xfield) : M W bool :=
  let* b := c_in white (x_name f) in
  if b then ret true else
  let* t := c_and black (x_tags f) in
  ret (negb t).

(** export_value, records/record.py:342-344 *)
Definition export_value_g (f : xfield) (v : obj) : M W bool :=
  let* b := c_in white (x_name f) in
  if b || defaults then ret true else
  match x_default f with
  | NoDefault | DefFactory _ => ret true
  | DefVal d => let* b := v_eq R d v in ret (negb b)
  end.

(** tuples, records/record.py:367-385 *)
Definition extract_one_g (ok : string -> bool) (x : obj) (f : xfield) : M W (dict obj) :=
  let* e := export_field_g f in
  if negb e then ret [] else
  fun w =>
  match getattr R x (x_name f) w with
  | (Ok v, w1) => (let* b := export_value_g f v in ret (if b then [(x_name f, v)] else [])) w1
  | (Raise e, w1) =>
      if is_AttributeError e then
          if negb (ok (x_name f)) then (Raise e, w1) else
          if defaults then
            match x_default f with
            | NoDefault => (Ok [], w1)
            | DefVal d => (Ok [(x_name f, d)], w1)
            | DefFactory g => (let* d := g in ret [(x_name f, d)]) w1
            end
          else (Ok [], w1)
      else (Raise e, w1)
  end.
Fixpoint extract_g (ok : string -> bool) (x : obj) (fs : list xfield) : M W (dict obj) :=
  match fs with
  | [] => ret []
  | f :: r =>
      let* h := extract_one_g ok x f in
      let* t := extract_g ok x r in
      ret (h ++ t)
  end.
End Given.

(** RecordBase._to_dict(x, include_defaults, sort, blacklist_tags, whitelist_keys) --
    records/record.py:300-395, without _rev_select *)
Definition to_dict_given {obj ty W} (R : Rt obj ty W) (c : @cls obj ty W) (x : obj) (defaults : bool) (s : sorting)
    (black : given nat W) (white : given string W) : M W (dict obj) :=
  let* l := extract_g R defaults (normal Nat.eqb black) (normal String.eqb white) (missing_ok c sel_empty) x
              (map snd (extraction c sel_empty)) in
  ret (sort_items s l).
