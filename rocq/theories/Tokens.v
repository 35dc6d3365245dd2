(** Tokens.v -- model of the coercion and validation tokens themselves:
    records/fillers/validators.py, builtin_validators.py, coercers.py and
    builtin_fillers/std_fillers.py:16-236, 256-290, 319-328.  Each becomes a callback that
    Filler.v attaches to fields through [TCoerce (CGlobal ...)] and [TValid (VGlobal ...)]. *)
From Coq Require Import SpecFloat.
From Verif Require Import Base Py Filler Runtime.

(** The Python operations the tokens use on values.  All of them may run user code. *)
Record Ops (obj ty W : Type) := {
  (** [x < y] etc., [x == y] and [bool(x)], in a condition *)
  op_cmp : cmp -> obj -> obj -> M W bool;
  op_eq : obj -> obj -> M W bool;
  op_truth : obj -> M W bool;
  (** [x - y], [x % y], [x + y] *)
  op_sub : obj -> obj -> M W obj;
  op_mod : obj -> obj -> M W obj;
  op_add : obj -> obj -> M W obj;
  (** [f( *args, **kwargs )] for an object *)
  op_call : obj -> list obj -> dict obj -> M W obj;
  (** calling the origin of a field: its class, [callable], or a Literal *)
  op_make : @origin ty -> list obj -> dict obj -> M W obj;
  (** [getattr(origin, name)] *)
  op_method : @origin ty -> string -> outcome obj;
  (** [tuple(v)]; [v.items()]; the keywords that [** v] passes *)
  op_tuple : obj -> M W (list obj);
  op_items : obj -> M W (list (string * obj));
  op_unpack : obj -> M W (dict obj);
  (** [isinstance(v, str)], [eval(v, {'__builtins__': ns})] and [ast.literal_eval(v)] *)
  op_is_str : obj -> bool;
  op_eval : dict obj -> obj -> M W obj;
  op_literal_eval : obj -> M W obj;
  (** [warnings.warn(e)] ([None]) and [logger.warning(e)] *)
  op_warn : option obj -> exc -> M W unit
}.
Arguments op_cmp {obj ty W}.
Arguments op_eq {obj ty W}.
Arguments op_truth {obj ty W}.
Arguments op_sub {obj ty W}.
Arguments op_mod {obj ty W}.
Arguments op_add {obj ty W}.
Arguments op_call {obj ty W}.
Arguments op_make {obj ty W}.
Arguments op_method {obj ty W}.
Arguments op_tuple {obj ty W}.
Arguments op_items {obj ty W}.
Arguments op_unpack {obj ty W}.
Arguments op_is_str {obj ty W}.
Arguments op_eval {obj ty W}.
Arguments op_literal_eval {obj ty W}.
Arguments op_warn {obj ty W}.

Section Tokens.
Context {obj ty W : Type} (P : Py obj ty W) (X : Ops obj ty W).
Notation callback := (@callback obj W).
Notation origin := (@origin ty).
Notation ctoken := (@ctoken obj ty W).
Notation vtoken := (@vtoken obj ty W).

(** ** AssertValidation -- validators.py:32-86 *)

(** the [err] and [warn] arguments, 37-44.  A Logger is taken to be true. *)
Inductive err_arg := ErrText (s : string) | ErrExc (e : exc).
Inductive warn_arg := WarnFalse | WarnTrue | WarnLogger (logger : obj).
Record assert_args := AssertArgs { as_err : err_arg; as_warn : warn_arg }.
(** the defaults of the two *)
Definition plain_assert : assert_args := AssertArgs (ErrText "validation failed") WarnFalse.

(** UserWarning, as an exception class of its own *)
Definition UserWarning : exc_class := UserExc 0 CtorStr.

(** _exc, 46-54 *)
Definition assert_exc (a : assert_args) : exc :=
  match as_err a with
  | ErrExc e => e
  | ErrText s => match as_warn a with WarnFalse => mkexc ValueError s | _ => mkexc UserWarning s end
  end.

(** _raise, 56-67 *)
Definition assert_raise (a : assert_args) : M W unit :=
  match as_warn a with
  | WarnFalse => raise (assert_exc a)
  | WarnTrue => op_warn X None (assert_exc a)
  | WarnLogger l => op_warn X (Some l) (assert_exc a)
  end.

(** inner, 77-83; [check] is the subclass's assert_ *)
Definition assert_inner (a : assert_args) (check : obj -> M W bool) : callback :=
  fun v =>
    let* b := check v in
    if b : bool then ret v else let* _ := assert_raise a in ret v.

(** ** The validators of builtin_validators.py *)

(** Clamp -- 47-68.  [None] is an omitted bound, i.e. _Least / _Greatest (7-44).  Python asks
    the right operand whenever the left one does not know the answer, so that comparisons
    with an omitted bound are answered by _Least / _Greatest.  Simplification: no other
    object has an opinion of its own about them. *)
Definition clamp_new (ge le : option obj) : M W unit :=
  let* bad := (match ge, le with Some a, Some b => op_cmp X CGt a b | _, _ => ret false end) in
  if bad : bool then raise (mkexc ValueError "the lower bound must not be greater then the upper bound") else ret tt.

(** [min(max(v, ge), le)], 64-65: max keeps its first argument unless the second is
    greater, min unless the second is less *)
Definition py_max (v : obj) (ge : option obj) : M W obj :=
  match ge with
  | None => ret v
  | Some a => let* b := op_cmp X CGt a v in ret (if b : bool then a else v)
  end.
Definition py_min (v : obj) (le : option obj) : M W obj :=
  match le with
  | None => ret v
  | Some a => let* b := op_cmp X CLt a v in ret (if b : bool then a else v)
  end.
Definition clamp (ge le : option obj) : callback :=
  fun v => let* m := py_max v ge in py_min m le.

(** Cyclic.inner -- 86-91 *)
Definition cyclic (lo hi : obj) : callback :=
  fun v =>
    let* a := op_cmp X CLe lo v in
    let* inside := (if a : bool then op_cmp X CLt v hi else ret false) in
    if inside : bool then ret v else
    let* d := op_sub X v lo in
    let* m := op_sub X hi lo in
    let* d := op_mod X d m in
    op_add X lo d.

(** Within.__init__ -- 102-116 *)
Definition within_new (ge lt : option obj) (g_eq l_eq : bool) : M W unit :=
  let* bad := (match ge, lt with
               | Some a, Some b =>
                   let* g := op_cmp X CGt a b in
                   if g : bool then ret true else
                   if negb g_eq || negb l_eq then op_eq X a b else ret false
               | _, _ => ret false
               end) in
  if bad : bool then raise (mkexc ValueError "the lower bound must not be greater then the upper bound") else ret tt.

(** Within.assert_ -- 118-133 *)
Definition within_check (ge lt : option obj) (g_eq l_eq : bool) (v : obj) : M W bool :=
  let* a := (match ge with
             | None => ret true
             | Some x => op_cmp X (if g_eq then CLe else CLt) x v
             end) in
  if negb a then ret false else
  let* b := (match lt with
             | None => ret true
             | Some x => op_cmp X (if l_eq then CGe else CGt) x v
             end) in
  if negb b then ret false else ret true.
Definition within (ge lt : option obj) (g_eq l_eq : bool) (a : assert_args) : callback :=
  assert_inner a (within_check ge lt g_eq l_eq).

(** FullMatch -- 136-153; [fullmatch v] is [bool(pattern.fullmatch(v))] *)
Definition full_match (fullmatch : obj -> M W bool) (a : assert_args) : callback := assert_inner a fullmatch.

(** Truth -- 156-162 *)
Definition truth_validator (a : assert_args) : callback := assert_inner a (op_truth X).

(** AssertCallValidation -- validators.py:89-102; [not self.assert_(v)] asks the result for
    its truth *)
Definition assert_call (func : obj) (a : assert_args) : callback :=
  assert_inner a (fun v => let* r := op_call X func [v] [] in op_truth X r).

(** CallValidation.inner -- validators.py:128-129, CallCoercion.inner -- coercers.py:56-57 *)
Definition call_with (func : obj) (args : list obj) (kwargs : dict obj) : callback :=
  fun v => op_call X func (v :: args) kwargs.

(** GlobalValidationToken.__call__ of all these ignores its arguments: builtin_validators.py:67,
    93, validators.py:85, 131 *)
Definition validation (f : callback) : vtoken := VGlobal (fun _ => Ok f).

(** ** coercers.py *)

(** a mapping from values, as MapCoercion sees it: its truth, [v in m] and [m[v]] *)
Record mapping := Mapping { mp_true : bool; mp_in : obj -> M W bool; mp_get : obj -> M W obj }.

(** MapCoercion -- coercers.py:63-85: [value_map or {}], [factory_map or {}].  Simplification:
    [v in {}] does not hash [v]. *)
Definition mapping_in (m : option mapping) (v : obj) : M W bool :=
  match m with Some m => if mp_true m then mp_in m v else ret false | None => ret false end.
Definition mapping_get (m : option mapping) (v : obj) : M W obj :=
  match m with Some m => mp_get m v | None => raise (mkexc KeyError "") end.
Definition map_coercion (value_map factory_map : option mapping) : callback :=
  fun v =>
    let* a := mapping_in value_map v in
    if a : bool then mapping_get value_map v else
    let* b := mapping_in factory_map v in
    if b : bool then let* f := mapping_get factory_map v in op_call X f [] [] else
    raise (mkexc TypeError "").

(** ClassMethodCoercion.__call__ -- coercers.py:103-109 *)
Definition class_method (method : string) (args : list obj) (kwargs : dict obj) : ctoken :=
  CGlobal (fun o => do f <- op_method X o method; Ok (call_with f args kwargs)).

(** CallCoercion.__call__ and MapCoercion.__call__ ignore their arguments -- coercers.py:59, 84 *)
Definition coercion (f : callback) : ctoken := CGlobal (fun _ => Ok f).

(** ** std_fillers.py *)

(** Eval -- 16-54.  [ns o] is the namespace: the named objects, and the origin [o] if asked
    for (23-42). *)
Definition eval_callback (ns : dict obj) : callback :=
  fun v =>
    if negb (op_is_str X v) then raise (mkexc TypeError "") else
    catch (op_eval X ns v) (fun e => raise (Exc TypeError "" (Some e))).
Definition eval_token (ns : origin -> dict obj) : ctoken := CGlobal (fun o => Ok (eval_callback (ns o))).

(** LiteralEval -- 57-74.  [literals] are the classes int, str, float, complex, set, tuple,
    dict, list and bool.  [fuel] bounds the number of rounds of the while loop; it
    does not run out if evaluating a string gives a shorter string (c80_terminates). *)
Fixpoint literal_loop (fuel : nat) (v : obj) : M W obj :=
  if negb (op_is_str X v) then ret v else
  match fuel with
  | O => raise (mkexc RuntimeError "still running")
  | S n => fun w =>
      match op_literal_eval X v w with
      | (Ok y, w1) => literal_loop n y w1
      | (Raise e, w1) => (Raise (if is_ValueError e then mkexc TypeError "" else e), w1)
      end
  end.
Definition literal_eval_token (literals : list ty) (fuel : obj -> nat) : ctoken :=
  CGlobal (fun o => match o with
                    | OTy t => if ty_mem P t literals then Ok (fun v => literal_loop (fuel v) v)
                               else Raise (mkexc TypeError "cannot use literal evaluation coercer with non-literal type")
                    | _ => Raise (mkexc TypeError "cannot use literal evaluation coercer with non-literal type")
                    end).

(** LooseMixin.__call__ -- 105-113 *)
Definition loose_token (f : origin -> callback) : ctoken :=
  CGlobal (fun o => match o with
                    | OTy t => if isabstract P t then Raise (mkexc TypeError "cannot use loose coercer with non-concrete type")
                               else Ok (f o)
                    | _ => Raise (mkexc TypeError "cannot use loose coercer with non-concrete type")
                    end).

(** [isinstance(v, (t1, ..., tn))] *)
Definition instance_any (v : obj) (ts : list ty) : bool := existsb (isinstance P v) ts.

(** Loose.func_args -- 126-129.  A single class is a tuple of one here; an empty tuple is
    false. *)
Definition loose (constraint : option (list ty)) (args : list obj) (kwargs : dict obj) (o : origin) : callback :=
  fun v =>
    let bad := match constraint with
               | Some (t :: r) => negb (instance_any v (t :: r))
               | _ => false
               end in
    if bad then raise (mkexc TypeError "must be of type") else op_make X o (v :: args) kwargs.

(** LooseUnpack.func_args -- 163-173.  [UnpackAll t] is [(t, ...)]. *)
Inductive unpack_constraint := UnpackFree | UnpackAll (t : list ty) | UnpackEach (ts : list (list ty)).
Fixpoint zip_bad (vs : list obj) (tcs : list (list ty)) : bool :=
  match vs, tcs with
  | v :: r, tc :: s => negb (instance_any v tc) || zip_bad r s
  | _, _ => false
  end.
Definition loose_unpack (constraint : unpack_constraint) (args : list obj) (kwargs : dict obj) (o : origin) : callback :=
  fun v =>
    let* vs := op_tuple X v in
    let bad := match constraint with
               | UnpackFree => false
               | UnpackAll t => existsb (fun i => negb (instance_any i t)) vs
               | UnpackEach tcs => negb (Nat.eqb (List.length vs) (List.length tcs)) || zip_bad vs tcs
               end in
    if bad then raise (mkexc TypeError "") else op_make X o (vs ++ args) kwargs.

(** LooseUnpackMap.func_args -- 211-217.  Passing a keyword both ways is a TypeError of
    Python's. *)
Definition loose_unpack_map (constraint : option (dict (list ty))) (args : list obj) (kwargs : dict obj) (o : origin) : callback :=
  fun v =>
    let* ok := (match constraint with
                | None => ret true
                | Some tcs =>
                    let* l := op_items X v in
                    ret (forallb (fun ka => match dget (fst ka) tcs with
                                            | None => false
                                            | Some tc => instance_any (snd ka) tc
                                            end) l)
                end) in
    if negb ok then raise (mkexc TypeError "") else
    let* kw := op_unpack X v in
    if existsb (fun k => dmem k kwargs) (keys kw) then raise (mkexc TypeError "got multiple values for keyword argument")
    else op_make X o args (kw ++ kwargs).

(** Falsish.func_args -- 325-328 *)
Definition falsish (args : list obj) (kwargs : dict obj) (o : origin) : callback :=
  fun v =>
    let* t := op_truth X v in
    if negb t then op_make X o args kwargs else raise (mkexc TypeError "").

(** OriginDependant.__call__ -- 101-102 *)
Definition origin_dependant (f : origin -> callback) : ctoken := CGlobal (fun o => Ok (f o)).

End Tokens.
Arguments AssertArgs {obj}.
Arguments as_err {obj}.
Arguments as_warn {obj}.
Arguments WarnFalse {obj}.
Arguments WarnTrue {obj}.
Arguments WarnLogger {obj}.
Arguments plain_assert {obj}.
Arguments assert_exc {obj}.
Arguments Mapping {obj W}.
Arguments mp_true {obj W}.
Arguments mp_in {obj W}.
Arguments mp_get {obj W}.
Arguments UnpackFree {ty}.
Arguments UnpackAll {ty}.
Arguments UnpackEach {ty}.

(** ** Whole -- std_fillers.py:256-272 *)

(** Python's floats: IEEE binary64, as in Coq's SpecFloat *)
Definition prec := 53%Z.
Definition emax := 1024%Z.
Definition f_one : spec_float := S754_finite false 4503599627370496 (-52).
(** 1e-09 *)
Definition rel_tol : spec_float := S754_finite false 4835703278458517 (-82).

(** fmod, which is exact: the remainder has the sign of the first argument.  Simplification:
    the sign of a zero remainder is lost; nothing below looks at it. *)
Definition fmod (x y : spec_float) : spec_float :=
  match x, y with
  | S754_finite s m e, S754_finite _ n f =>
      let e0 := Z.min e f in
      let r := ((Zpos m * 2 ^ (e - e0)) mod (Zpos n * 2 ^ (f - e0)))%Z in
      binary_normalize prec emax (if s then - r else r) e0 s
  | S754_zero s, S754_finite _ _ _ => S754_zero s
  | S754_zero s, S754_infinity _ => S754_zero s
  | S754_finite _ _ _, S754_infinity _ => x
  | _, _ => S754_nan
  end.

Definition is_zero (x : spec_float) : bool := match x with S754_zero _ => true | _ => false end.
Definition is_neg (x : spec_float) : bool := match x with S754_finite true _ _ | S754_infinity true => true | _ => false end.

(** [x % y] for floats, y not zero (CPython's float_rem) *)
Definition float_mod (x y : spec_float) : spec_float :=
  let m := fmod x y in
  match m with
  | S754_nan => S754_nan
  | _ => if is_zero m then S754_zero (is_neg y)
         else if Bool.eqb (is_neg y) (is_neg m) then m else SFadd prec emax m y
  end.

(** math.isclose(a, b) with the default tolerances *)
Definition isclose (a b : spec_float) : bool :=
  if SFeqb a b then true else
  match a, b with
  | S754_infinity _, _ | _, S754_infinity _ => false
  | _, _ =>
      let diff := SFabs (SFsub prec emax b a) in
      SFleb diff (SFabs (SFmul prec emax rel_tol b)) || SFleb diff (SFabs (SFmul prec emax rel_tol a))
  end.

(** What numbers.Rational, Real and Complex say about a value.  Simplification: a Real that
    is not Rational is a float, the parts of a Complex are floats. *)
Inductive number := NRational (num : Z) (den : positive) | NFloat (f : spec_float) | NComplex (re im : spec_float) | NOther.

Section Whole.
Context {obj ty W : Type} (X : Ops obj ty W).
Context (number_of : obj -> number) (int_obj : Z -> obj) (float_obj : spec_float -> obj).

Definition whole_float (args : list obj) (kwargs : dict obj) (o : @origin ty) (v : obj) (f : spec_float) : M W obj :=
  let m := float_mod f f_one in
  if isclose m (S754_zero false) || isclose m f_one
  then op_make X o (v :: args) kwargs
  else raise (mkexc TypeError "").

Definition whole (args : list obj) (kwargs : dict obj) (o : @origin ty) : @callback obj W :=
  fun v => match number_of v with
  | NRational n d => if Pos.eqb d 1 then op_make X o (int_obj n :: args) kwargs else raise (mkexc TypeError "")
  | NFloat f => whole_float args kwargs o v f
  | NComplex re im => if is_zero im then whole_float args kwargs o (float_obj re) re else raise (mkexc TypeError "")
  | NOther => raise (mkexc TypeError "")
  end.
End Whole.

(** ** ToBytes -- std_fillers.py:275-290 *)

(** [v.bit_length()] *)
Definition bit_length (v : Z) : Z := if Z.eqb v 0 then 0%Z else (Z.log2 (Z.abs v) + 1)%Z.

(** the [n] base-256 digits of [v], least significant first; [v] is taken modulo 256^n *)
Fixpoint digits (n : nat) (v : Z) : list Z :=
  match n with O => [] | S n => (v mod 256)%Z :: digits n (v / 256)%Z end.

(** [v.to_bytes(length, byteorder, signed=signed)] *)
Definition to_bytes (length : Z) (big signed : bool) (v : Z) : outcome (list Z) :=
  if Z.ltb length 0 then Raise (mkexc ValueError "length argument must be non-negative") else
  let m := (256 ^ length)%Z in
  if (if signed then Z.leb (- m) (2 * v) && Z.ltb (2 * v) m else Z.leb 0 v && Z.ltb v m)
  then let l := digits (Z.to_nat length) v in Ok (if big then rev l else l)
  else Raise (mkexc OverflowError "int too big to convert").

(** ToBytes.func_args for an int, without the final call of the origin; [None] is no length.
    Without one the byte order has to be given (Python before 3.11), so it is here. *)
Definition whole_bytes (length : option Z) (big signed : bool) (v : Z) : outcome (list Z) :=
  let n := match length with
           | Some n => n
           | None => ((bit_length v + 7 + (if signed then 1 else 0)) / 8)%Z
           end in
  to_bytes n big signed v.

(** ToBytes.func_args.  [int_value v] is the value of an Integral, None for everything else;
    [raise type] (284) is itself a TypeError. *)
Definition bytes_coercer {obj ty W} (X : Ops obj ty W) (int_value : obj -> option Z) (bytes_obj : list Z -> obj)
    (length : option Z) (big signed : bool) (o : @origin ty) : @callback obj W :=
  fun v => match int_value v with
           | None => raise (mkexc TypeError "exceptions must derive from BaseException")
           | Some z => let* bs := lift (whole_bytes length big signed z) in op_make X o [bytes_obj bs] []
           end.
