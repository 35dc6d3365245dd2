(** Spec_Tokens.v -- what the built-in coercers and validators are supposed to do, in terms of
    orders, numbers and calls; nothing here mentions how they do it. *)
From Coq Require Import QArith Qround SpecFloat.
From Verif Require Import Base Py Filler Runtime Tokens.
Open Scope Z_scope.

Section Spec.
Context {obj ty W : Type} (P : Py obj ty W) (X : Ops obj ty W).

(** On the values in [D], Python's comparisons just give an answer, and they are those of the
    total preorder whose strict part is [lt] (total up to values that are equal). *)
Definition totally_ordered (D : obj -> Prop) (lt : obj -> obj -> bool) : Prop :=
  (forall a b w, D a -> D b ->
     op_cmp X CLt a b w = (Ok (lt a b), w) /\ op_cmp X CGt a b w = (Ok (lt b a), w) /\
     op_cmp X CLe a b w = (Ok (negb (lt b a)), w) /\ op_cmp X CGe a b w = (Ok (negb (lt a b)), w) /\
     op_eq X a b w = (Ok (negb (lt a b) && negb (lt b a)), w)) /\
  (forall a, D a -> lt a a = false) /\
  (forall a b c, D a -> D b -> D c -> lt a b = true -> lt b c = true -> lt a c = true) /\
  (forall a b c, D a -> D b -> D c -> lt a c = true -> lt a b = true \/ lt b c = true).

(** a bound is in [D]; [None] is no bound *)
Definition bound_in (D : obj -> Prop) (b : option obj) : Prop := forall a, b = Some a -> D a.

(** [v] is on the right side of a lower / upper bound; [eq] says whether the bound itself is *)
Definition above (lt : obj -> obj -> bool) (eq : bool) (b : option obj) (v : obj) : Prop :=
  forall a, b = Some a -> if eq then lt v a = false else lt a v = true.
Definition below (lt : obj -> obj -> bool) (eq : bool) (b : option obj) (v : obj) : Prop :=
  forall a, b = Some a -> if eq then lt a v = false else lt v a = true.

(** ** Exact numbers *)

(** On the values in [D], which stand for the rationals [val], Python's operations are exact
    (int and Fraction); [x % y] is [x - y * floor(x / y)], and an error if [y] is zero. *)
Definition exact_numbers (D : obj -> Prop) (val : obj -> Q) : Prop :=
  (forall a b w, D a -> D b ->
     op_cmp X CLt a b w = (Ok (negb (Qle_bool (val b) (val a))), w) /\
     op_cmp X CLe a b w = (Ok (Qle_bool (val a) (val b)), w)) /\
  (forall a b w, D a -> D b -> exists c, op_sub X a b w = (Ok c, w) /\ D c /\ (val c == val a - val b)%Q) /\
  (forall a b w, D a -> D b -> exists c, op_add X a b w = (Ok c, w) /\ D c /\ (val c == val a + val b)%Q) /\
  (forall a b w, D a -> D b -> ~ (val b == 0)%Q -> exists c, op_mod X a b w = (Ok c, w) /\ D c /\
     (val c == val a - val b * inject_Z (Qfloor (val a / val b)))%Q) /\
  (forall a b w, D a -> D b -> (val b == 0)%Q -> exists m, op_mod X a b w = (Raise (mkexc ZeroDivisionError m), w)).

(** [r] is [v] plus a multiple of the period [p] *)
Definition congruent (p r v : Q) : Prop := exists k : Z, (r == v + inject_Z k * p)%Q.

(** ** Floats *)

(** the value of a finite float *)
Definition float_value (f : spec_float) : option Q :=
  match f with
  | S754_zero _ => Some 0%Q
  | S754_finite s m e =>
      let z := if s then Z.neg m else Z.pos m in
      Some (match e with
            | Zneg p => (inject_Z z / inject_Z (2 ^ Zpos p))%Q
            | _ => inject_Z (z * 2 ^ e)
            end)
  | _ => None
  end.

(** ** Bytes *)
Definition is_byte (b : Z) : Prop := 0 <= b < 256.
(** [int.from_bytes(bytes, byteorder, signed=signed)]: the first byte has the lowest weight,
    or the highest for 'big'; a signed number with the top bit set is negative *)
Fixpoint little_endian (l : list Z) : Z := match l with [] => 0 | d :: r => d + 256 * little_endian r end.
Definition from_bytes (big signed : bool) (l : list Z) : Z :=
  let v := little_endian (if big then rev l else l) in
  let m := 256 ^ Z.of_nat (List.length l) in
  if signed && Z.leb m (2 * v) then v - m else v.
(** the integers that fit into [n] bytes *)
Definition fits_in (n : Z) (signed : bool) (v : Z) : Prop :=
  if signed then - 256 ^ n <= 2 * v < 256 ^ n else 0 <= v < 256 ^ n.

(** ** Coercers *)

(** the mapping finds [f v] for [v], without doing anything else; a mapping that is false is
    empty, as is one that was not given *)
Definition looks_up (m : option (@mapping obj W)) (f : obj -> option obj) : Prop :=
  match m with
  | None => forall v, f v = None
  | Some m => (mp_true m = false -> forall v, f v = None) /\
              forall v w, mp_in m v w = (Ok (match f v with Some _ => true | None => false end), w) /\
                          forall x, f v = Some x -> mp_get m v w = (Ok x, w)
  end.

(** [v] is an instance of one of the classes *)
Definition instance_of_one (ts : list ty) (v : obj) : Prop := exists t, In t ts /\ isinstance P v t = true.

(** [y] comes out of evaluating [v] as a literal as often as it is a string *)
Inductive evaluated : obj -> W -> obj -> W -> Prop :=
| evaluated_done v w : evaluated v w v w
| evaluated_step v w z w1 y w' : op_is_str X v = true -> op_literal_eval X v w = (Ok z, w1) -> evaluated z w1 y w' -> evaluated v w y w'.

(** ** What the built-in tokens ask, in a field of class [t] *)

(** for an argument [v], the coercer's answer is that of [m] *)
Inductive coerced_by (t : ty) (v : obj) : @ctoken obj ty W -> M W obj -> Prop :=
(** CallCoercion(f, *args, **kw): f(v, *args, **kw) *)
| by_call f args kw : coerced_by t v (coercion (call_with X f args kw)) (op_call X f (v :: args) kw)
(** ClassMethodCoercion(name, *args, **kw): t.name(v, *args, **kw) *)
| by_method name f args kw : op_method X (OTy t) name = Ok f ->
    coerced_by t v (class_method X name args kw) (op_call X f (v :: args) kw)
(** Eval(...): the value of the expression [v] with the names it was given for [t] *)
| by_eval ns : op_is_str X v = true -> coerced_by t v (eval_token X ns) (op_eval X (ns (OTy t)) v)
(** Loose( *args, **kw ): t(v, *args, **kw) *)
| by_loose args kw : isabstract P t = false -> coerced_by t v (loose_token P (loose P X None args kw)) (op_make X (OTy t) (v :: args) kw)
(** Falsish( *args, **kw ): t( *args, **kw ) if [v] is false, an error if it is true *)
| by_falsish args kw : (forall w, op_truth X v w = (Ok false, w)) ->
    coerced_by t v (origin_dependant (falsish X args kw)) (op_make X (OTy t) args kw)
| by_not_falsish args kw : (forall w, op_truth X v w = (Ok true, w)) ->
    coerced_by t v (origin_dependant (falsish X args kw)) (raise (mkexc TypeError "")).

(** the condition that a validator asks of a value, and what it does if that is false *)
Inductive checks : @vtoken obj ty W -> (obj -> M W bool) -> @assert_args obj -> Prop :=
(** FullMatch(pattern): whether the pattern matches all of the value *)
| checks_match m a : checks (validation (full_match X m a)) m a
(** Truth(): bool(value) *)
| checks_truth a : checks (validation (truth_validator X a)) (op_truth X) a
(** AssertCallValidation(f): bool(f(value)) *)
| checks_call f a : checks (validation (assert_call X f a)) (fun v => let* r := op_call X f [v] [] in op_truth X r) a.

End Spec.
