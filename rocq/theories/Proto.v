(** Proto.v -- pickling records with the protocols of the pickle module, and calling parametrized
    record classes: how copyreg and typing of the standard library treat what records/record.py
    gives them. *)
From Verif Require Import Base Py Select Filler Classes Runtime Record.
Open Scope string_scope.
Open Scope list_scope.

Section Proto.
Context {obj ty W : Type} (R : Rt obj ty W).
Notation P := (rt_py R).
Notation cls := (@cls obj ty W).
Context (ctx : ty -> option cls).

(** the protocol that pickle uses if it is given [p]: pickle.Pickler.__init__ of Python 3.8 and later.
    to_pickle passes its arguments on -- records/record.py:627-642 *)
Definition protocol (p : option Z) : outcome Z :=
  match p with
  | None => Ok 4%Z
  | Some p => if (p <? 0)%Z then Ok 5%Z else if (5 <? p)%Z then Raise (mkexc ValueError "pickle protocol must be <= 5") else Ok p
  end.

(** what a record class has of the attributes that copyreg looks for: whether its __slots__ are
    true, and its __getstate__.  RecordBase has __slots__ = '_hash', (records/record.py:58) and no
    __getstate__, so this is what classes have that declare neither.  Simplification:
    __getstate__ returns a dict with strings as keys, and there is no __setstate__. *)
Record pickling := Pickling { pk_slots : bool; pk_getstate : option (obj -> M W (dict obj)) }.
Definition library_pickling : pickling := Pickling true None.

(** object.__new__(cls): a record without attributes, copyreg._reconstructor *)
Definition bare (c : cls) (d : dict obj) : M W obj :=
  fun w => (Ok (ref R (c_ty c) (List.length (heap R w))), set_heap R (heap R w ++ [Inst (c_ty c) d SUnset]) w).

(** copyreg._reduce_ex, and what pickle.loads makes of it: the state is written to __dict__.
    Simplification: object is the only base of the class that is not written in Python. *)
Definition copy_old (k : pickling) (c : cls) (x : obj) : M W obj :=
  let* d := (match pk_getstate k with
             | Some g => g x
             | None => if pk_slots k
                       then raise (mkexc TypeError "a class that defines __slots__ without defining __getstate__ cannot be pickled")
                       else fun w => match lookup R w x with
                                     | Some i => (Ok (i_dict i), w)
                                     | None => (Raise (mkexc AttributeError "not a record"), w)
                                     end
             end) in
  let* vs := pickle_values R (dvalues d) in
  bare c (combine (keys d) vs).

(** object.__reduce_ex__ for protocols from 2 on: __getnewargs_ex__ (records/record.py:428-429), then
    __getstate__ *)
Definition copy_new (k : pickling) (fuel : nat) (c : cls) (x : obj) : M W obj :=
  match pk_getstate k with
  | None => pickle_copy R ctx fuel x
  | Some g =>
      let* kw := to_dict R ctx x no_args sel_empty in
      let* d := g x in
      let* vs := pickle_values R (dvalues kw ++ dvalues d) in
      unpickle R fuel c (combine (keys kw) (firstn (List.length kw) vs))
                        (combine (keys d) (skipn (List.length kw) vs)) SUnset
  end.

(** pickle.loads(x.to_pickle(p)) *)
Definition pickle_with (k : pickling) (p : option Z) (fuel : nat) (x : obj) : M W obj :=
  with_class R ctx x (fun c =>
  let* p := lift (protocol p) in
  if (p <? 2)%Z then copy_old k c x else copy_new k fuel c x).

(** ** Parametrized classes *)

(** A[...](...) for a record class that is generic: typing._GenericAlias.__call__ of Python 3.7 to
    3.11 calls the class and sets __orig_class__ of the result, [alias] being A[...]; an
    AttributeError is ignored.  [other] is the assignment to an object that is no record. *)
Definition call_alias (fuel : nat) (c : cls) (alias : obj) (other : obj -> string -> obj -> M W unit)
    (pos : option obj) (kw : dict obj) : M W obj :=
  let* r := construct R fuel c pos kw in
  let* _ := (fun w => match (match lookup R w r with
                             | Some _ => setattr R ctx r "__orig_class__" alias w
                             | None => other r "__orig_class__" alias w
                             end) with
                      | (Ok _, w') => (Ok tt, w')
                      | (Raise e, w') => if is_AttributeError e then (Ok tt, w') else (Raise e, w')
                      end) in
  ret r.
End Proto.
Arguments pickling : clear implicits.
