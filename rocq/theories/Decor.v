(** Decor.v -- decorators that may be given keywords first: records/utils/decorators.py, and the
    methods of fields that use it, records/field.py:132-220. *)
From Verif Require Import Base Py Filler Tokens Subkeys.

Section Decor.
Context {obj ty W : Type} (X : Ops obj ty W).
Notation token := (@token obj ty W).

(** What the methods ask of objects: whether one is None, what kind of key a sub_key is
    (Subkeys.v), and what AssertValidation makes of its keywords err and warn
    (validators.py:37-57). *)
Context (is_none : obj -> bool) (key_of : obj -> subkey)
        (asserting : option obj -> option obj -> @assert_args obj).

(** the three methods *)
Inductive adder := AddValidator | AddAssertValidator | AddCoercer.

Definition multiple (k : string) : exc := mkexc TypeError ("got multiple values for argument " ++ k)%string.

(** CallValidation(func, **kwargs) -- validators.py:109-126; AssertCallValidation(func, **kwargs)
    -- validators.py:93-99, which knows the keywords err and warn only; CallCoercion(func,
    **kwargs) -- coercers.py:37-54 *)
Definition token_of (a : adder) (func : obj) (kw : dict obj) : outcome token :=
  match a with
  | AddValidator => Ok (TValid (validation (call_with X func [] kw)))
  | AddAssertValidator =>
      if forallb (fun k => smem k ["err"; "warn"]%string) (keys kw)
      then Ok (TValid (validation (assert_call X func (asserting (dget "err" kw) (dget "warn" kw)))))
      else Raise (mkexc TypeError "unexpected keyword argument")
  | AddCoercer => Ok (TCoerce (coercion (call_with X func [] kw)))
  end.

(** add_validator(self, func, sub_key=None, **kwargs) and the others -- records/field.py:132-220:
    the token for the filler, the key of the part it is for, and what the method returns *)
Definition add_method (a : adder) (func : obj) (kw : dict obj) : outcome ((subkey * token) * obj) :=
  if dmem "func" kw then Raise (multiple "func") else
  do t <- token_of a func (ddel "sub_key" kw);
  Ok ((match dget "sub_key" kw with Some k => if is_none k then SkNone else key_of k | None => SkNone end, t), func).

(** what the decorated method gives: a decorator that waits for the function, with the keywords it
    was given, or the outcome of the method *)
Inductive decorated :=
| Waiting (kw : dict obj)
| Finished (op : subkey * token) (result : obj).

(** ret(self, f=None, **kwargs) -- records/utils/decorators.py:19-23, called on a field with
    positional and keyword arguments: Python binds [f] by position or by name *)
Definition ret_f (a : adder) (f : option obj) (kw : dict obj) : outcome decorated :=
  match f with
  | None => Ok (Waiting kw)
  | Some f =>
      if is_none f then Ok (Waiting kw) else
      do r <- add_method a f kw; Ok (Finished (fst r) (snd r))
  end.
Definition call_adder (a : adder) (pos : list obj) (kw : dict obj) : outcome decorated :=
  if dmem "self" kw then Raise (multiple "self") else
  match pos with
  | [] => ret_f a (dget "f" kw) (ddel "f" kw)
  | [f] => if dmem "f" kw then Raise (multiple "f") else ret_f a (Some f) kw
  | _ => Raise (mkexc TypeError "too many positional arguments")
  end.

(** [lambda f: ret(self, f, **kwargs)] -- records/utils/decorators.py:21 *)
Definition call_waiting (a : adder) (kw : dict obj) (f : obj) : outcome decorated := call_adder a [f] kw.

End Decor.
