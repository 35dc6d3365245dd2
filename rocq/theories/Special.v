(** Special.v -- the special methods the library keeps for itself: __init__, __setattr__ and
    __hash__ of record classes, and the warnings about them.

    Record.v takes it for granted that the library's own methods run.  Here the classes of
    the program may define methods of these names, and Python looks them up along the
    __mro__. *)
From Verif Require Import Base Py Select Filler Classes Runtime Record.

Section Special.
Context {obj ty W : Type} (R : Rt obj ty W).
Notation P := (rt_py R).
Notation cls := (@cls obj ty W).
Context (ctx : ty -> option cls).
(** RecordBase *)
Context (t_record : ty).

(** the functions of these names: __init__(self, *args, **kwargs) with at most one
    positional argument, __setattr__(self, name, value), __hash__(self) *)
Definition init_fn := obj -> option obj -> dict obj -> M W unit.
Definition setattr_fn := obj -> string -> obj -> M W unit.
Definition hash_fn := obj -> M W Z.

(** The classes of a program: their __mro__ and what their own namespaces have under the
    three names; [Some None] is [__hash__ = None]. *)
Record world := World {
  w_mro : ty -> list ty;
  w_init : ty -> option init_fn;
  w_setattr : ty -> option setattr_fn;
  w_hash : ty -> option (option hash_fn)
}.

(** attribute lookup on a class: the first class of its __mro__ that defines the name *)
Fixpoint definer {A} (f : ty -> option A) (l : list ty) : option ty :=
  match l with
  | [] => None
  | t :: r => match f t with Some _ => Some t | None => definer f r end
  end.
Definition found {A} (f : ty -> option A) (l : list ty) : option A :=
  match definer f l with Some t => f t | None => None end.

(** ** The library's own methods *)

(** RecordBase.__init__(self, arg=NO_ARG, **kwargs) -- records/record.py:265-267 *)
Definition base_init : init_fn :=
  fun _ _ kw => if dmem "self" kw then raise (mkexc TypeError "multiple values for argument 'self'") else ret tt.

(** the slot _hash, set by object.__setattr__ *)
Definition set_slot (x v : obj) (i : inst obj ty) (w : W) : W :=
  store R x (Inst (i_cls i) (i_dict i)
    (if is_none R v then SNone else match int_of R v with Some z => SHash z | None => SBad end)) w.
(** object.__setattr__ *)
Definition object_setattr : setattr_fn :=
  fun x k v w => match lookup R w x with
  | None => (Raise (mkexc AttributeError k), w)
  | Some i => if String.eqb k "_hash" then (Ok tt, set_slot x v i w)
              else (Ok tt, store R x (Inst (i_cls i) (dset k v (i_dict i)) (i_hash i)) w)
  end.
(** RecordBase.__setattr__ -- records/record.py:422-426 *)
Definition base_setattr : setattr_fn :=
  fun x k v w => match lookup R w x with
  | None => (Raise (mkexc AttributeError k), w)
  | Some i => if String.eqb k "_hash" then (Ok tt, set_slot x v i w)
              else (Raise (mkexc TypeError "is frozen"), w)
  end.
(** RecordBase.__hash__ -- records/record.py:411-420 *)
Definition base_hash : hash_fn :=
  fun x w => match lookup R w x with
  | None => v_hash R x w
  | Some i =>
      match i_hash i with
      | SUnset => (Raise (mkexc AttributeError "_hash"), w)
      | SBad => (Raise (mkexc TypeError "__hash__ method should return an integer"), w)
      | SHash z => (Ok z, w)
      | SNone =>
          (let* d := to_dict R ctx x no_args sel_empty in
           let* hs := mapM (v_hash R) (dvalues d) in
           fun w1 => (Ok (tuple_hash R hs),
                      match lookup R w1 x with
                      | Some j => store R x (Inst (i_cls j) (i_dict j) (SHash (tuple_hash R hs))) w1
                      | None => w1
                      end)) w
      end
  end.

(** ** Class statements *)

(** what a class statement says about all this; [m_rest] is the rest of its __mro__, which
    Python computes *)
Record stmt := Stmt {
  m_ty : ty;
  m_bases : list ty;
  m_rest : list ty;
  m_frozen : bool;
  m_init : option init_fn;
  m_setattr : option setattr_fn;
  m_hash : option (option hash_fn)
}.

Definition put {A} (t : ty) (v : A) (f : ty -> A) : ty -> A := fun u => if ty_eqb P u t then v else f u.

(** the class as Python creates it, before __init_subclass__ *)
Definition create_type (s : stmt) (wd : world) : world :=
  World (put (m_ty s) (m_ty s :: m_rest s) (w_mro wd)) (put (m_ty s) (m_init s) (w_init wd))
        (put (m_ty s) (m_setattr s) (w_setattr wd)) (put (m_ty s) (m_hash s) (w_hash wd)).

(** __init_subclass__ sets two of the methods -- records/record.py:141-146 *)
Definition set_methods (s : stmt) (wd : world) : world :=
  World (w_mro wd) (w_init wd)
        (put (m_ty s) (Some (if m_frozen s then base_setattr else object_setattr)) (w_setattr wd))
        (put (m_ty s) (Some (if m_frozen s then Some base_hash else None)) (w_hash wd)).

Definition declare (s : stmt) (wd : world) : world := set_methods s (create_type s wd).

(** the warnings of __init_subclass__: for methods of its own, "must not override ...
    (method will be overridden)", records/record.py:92-94, and "has parents that implement
    __init__, the initializer will not be called!", 127-128.  Simplification: two classes do
    not share one function object as __init__. *)
Definition defined {A} (o : option A) : bool := match o with Some _ => true | None => false end.
Definition own_warnings (s : stmt) : list string :=
  (if defined (m_init s) then ["__init__"%string] else []) ++
  (if defined (m_setattr s) then ["__setattr__"%string] else []) ++
  (if defined (m_hash s) then ["__hash__"%string] else []).
Definition parents_warning (wd : world) (s : stmt) : bool :=
  existsb (fun b => match definer (w_init wd) (w_mro wd b) with
                    | Some t => negb (ty_eqb P t t_record || ty_eqb P t (t_object P))
                    | None => false
                    end) (m_bases s).

(** ** What runs *)

(** p.k = v and hash(p) *)
Definition assign (wd : world) (x : obj) (k : string) (v : obj) : M W unit :=
  match found (w_setattr wd) (w_mro wd (type_of P x)) with
  | Some f => f x k v
  | None => raise (mkexc AttributeError k)
  end.
Definition hash_of (wd : world) (x : obj) : M W Z :=
  match found (w_hash wd) (w_mro wd (type_of P x)) with
  | Some (Some f) => f x
  | _ => raise (mkexc TypeError "unhashable type")
  end.

(** [type.__call__(cls, ...)]: __new__, and then __init__ of the class of the result if that
    is an instance of [cls], with the same arguments; like [call_cls] *)
Definition initialize (wd : world) (x : obj) (pos : option obj) (kw : dict obj) : M W unit :=
  match found (w_init wd) (w_mro wd (type_of P x)) with
  | Some f => f x pos kw
  | None => ret tt
  end.
Definition call_with_init (wd : world) (new : option obj -> dict obj -> M W obj) (c : cls)
    (pos : option obj) (kw : dict obj) : M W obj :=
  if dmem "cls" kw then raise (mkexc TypeError "multiple values for argument 'cls'") else
  let* r := (match pos, dget "arg" kw with
             | Some _, Some _ => raise (mkexc TypeError "multiple values for argument 'arg'")
             | None, Some a => new (Some a) (ddel "arg" kw)
             | _, None => new pos kw
             end) in
  if isinstance P r (c_ty c) then let* _ := initialize wd r pos kw in ret r else ret r.

(** RecordBase.__new__ -- records/record.py:168-252, like [new]: the parsers call the class *)
Fixpoint new_with_init (wd : world) (fuel : nat) (c : cls) (arg : option obj) (kw : dict obj) {struct fuel} : M W obj :=
  match fuel with
  | O => raise (mkexc RecursionError "maximum recursion depth exceeded")
  | S n =>
      match arg with
      | None => build R c (none R) kw
      | Some a =>
          let one := Nat.eqb (List.length (required_keys (c_fields c))) 1 in
          let* parsing := (match kw with
                           | [] => if c_unary c
                                   then catch_parse_failure
                                          (parse_with R (call_with_init wd (new_with_init wd n c) c None) c a)
                                          (fun e => if one then ret (none R) else raise e)
                                   else ret (none R)
                           | _ => ret (none R)
                           end) in
          if negb one then
            if is_none R parsing then raise (mkexc TypeError "class accepts no positional arguments") else ret parsing
          else
            match required_keys (c_fields c) with
            | k :: _ => if dmem k kw then raise (mkexc TypeError ("duplicate " ++ k)%string)
                        else build R c parsing (kw ++ [(k, a)])
            | [] => raise (mkexc RuntimeError "StopIteration")
            end
      end
  end.
(** cls(...) *)
Definition construct_with_init (wd : world) (fuel : nat) (c : cls) (pos : option obj) (kw : dict obj) : M W obj :=
  call_with_init wd (new_with_init wd fuel c) c pos kw.

End Special.
Arguments World {obj ty W}.
Arguments Stmt {obj ty W}.
Arguments w_mro {obj ty W}.
Arguments w_init {obj ty W}.
Arguments w_setattr {obj ty W}.
Arguments w_hash {obj ty W}.
Arguments m_ty {obj ty W}.
Arguments m_bases {obj ty W}.
Arguments m_rest {obj ty W}.
Arguments m_frozen {obj ty W}.
Arguments m_init {obj ty W}.
Arguments m_setattr {obj ty W}.
Arguments m_hash {obj ty W}.
