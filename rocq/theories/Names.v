(** Names.v -- what annotations written as text mean: typing.get_type_hints as
    records/record.py:99-105 calls it, with forward references, the namespaces of modules and
    what is remembered about forward references that were resolved before.  Under
    [from __future__ import annotations] every annotation is written as text.

    Classes.v is given annotations whose text has been read; here it is read. *)
From Verif Require Import Base Py Filler Classes.

(** NameError, for which Base.v has no name of its own *)
Definition NameError : exc_class := UserExc 100 CtorStr.

Section Names.
(** [V]: the objects of the program that are neither strings nor forward references nor built
    from any by subscription; [op]: what Python expressions do with the values of their parts:
    attributes, subscriptions, calls, constants, ... *)
Context {V op : Type}.

(** expressions: names, string literals, everything else *)
Inductive expr :=
| XName (n : string)
| XText (s : string)
| XOp (o : op) (args : list expr).

(** What expressions give.  [VRef r s] is a ForwardRef for the text [s]: one that is kept in
    another object, as by List['A'], is known by its number; a new one has none.
    [VAlias v args] is a generic alias: List[..], Optional[..], Annotated[..], ... *)
Inductive value :=
| VObj (v : V)
| VText (s : string)
| VRef (r : option nat) (s : string)
| VAlias (v : V) (args : list value).

(** a namespace *)
Definition scope := dict value.

(** Parts of Python and typing about which nothing is assumed: reading text
    (ForwardRef.__init__: SyntaxError), what operations give, the test of typing._type_check,
    copy_with of an alias, the built-in names. *)
Record Lang := {
  compile : string -> outcome expr;
  operate : op -> list value -> outcome value;
  is_type : value -> bool;
  copy_with : V -> list value -> outcome value;
  builtins : scope
}.
Context (L : Lang).

(** eval(code, globals, locals) *)
Definition lookup (n : string) (l g : scope) : outcome value :=
  match dget n l with
  | Some v => Ok v
  | None =>
      match dget n g with
      | Some v => Ok v
      | None => match dget n (builtins L) with
                | Some v => Ok v
                | None => Raise (mkexc NameError n)
                end
      end
  end.
Fixpoint eval (l g : scope) (e : expr) : outcome value :=
  match e with
  | XName n => lookup n l g
  | XText s => Ok (VText s)
  | XOp o args => do vs <- mapO (eval l g) args; operate L o vs
  end.

(** typing._type_check, typing._type_convert: a string is a new forward reference *)
Definition type_check (v : value) : outcome value :=
  match v with
  | VText s => Ok (VRef None s)
  | _ => if is_type L v then Ok v else Raise (mkexc TypeError "Forward references must evaluate to types.")
  end.

Fixpoint has_ref (v : value) : bool :=
  match v with
  | VObj _ | VText _ => false
  | VRef _ _ => true
  | VAlias _ args => existsb has_ref args
  end.

(** __forward_value__ of the forward references evaluated so far *)
Definition memory := nat -> option value.
Definition remember (r : option nat) (v : value) (m : memory) : memory :=
  match r with
  | None => m
  | Some i => fun j => if Nat.eqb j i then Some v else m j
  end.

(** typing._eval_type and ForwardRef._evaluate (Python 3.9).  [l] is localns: if there is
    none, globals are used for both, and a forward reference that was evaluated once is not
    evaluated again (__forward_evaluated__ and localns is globalns).  [guard] is
    recursive_guard.  [fuel] bounds the depth of calls.
    Simplification: an alias is copied if there is a forward reference in it; typing
    compares the arguments before and after. *)
Fixpoint eval_type (fuel : nat) (l : option scope) (g : scope) (guard : list string) (v : value)
  : M memory value :=
  match fuel with
  | O => raise (mkexc RecursionError "")
  | S n =>
      match v with
      | VObj _ | VText _ => ret v
      | VRef r s => fun m =>
          if smem s guard then (Ok v, m) else
          match (match r with Some i => m i | None => None end), l with
          | Some v', None => (Ok v', m)
          | _, _ =>
              (let* e := lift (compile L s) in
               let* v1 := lift (eval (match l with Some l => l | None => g end) g e) in
               let* v2 := lift (type_check v1) in
               let* v3 := eval_type n l g (s :: guard) v2 in
               (fun m => (Ok v3, remember r v3 m))) m
          end
      | VAlias a args =>
          let* args' := mapM (eval_type n l g guard) args in
          if existsb has_ref args then lift (copy_with L a args') else ret v
      end
  end.

(** A class as get_type_hints sees it: its name, its qualified name, the class itself, its
    module, its own __annotations__ *)
Record pyclass := PyClass {
  k_name : string;
  k_qualname : string;
  k_obj : value;
  k_module : nat;
  k_anns : dict value
}.

(** typing.get_type_hints for one class of the __mro__: a string is a new forward reference;
    [acc] are the hints so far *)
Definition as_hint (v : value) : value := match v with VText s => VRef None s | _ => v end.
Fixpoint hints_of (fuel : nat) (l : option scope) (g : scope) (anns : dict value) (acc : dict value)
  : M memory (dict value) :=
  match anns with
  | [] => ret acc
  | (k, v) :: r =>
      let* v' := eval_type fuel l g [] (as_hint v) in
      hints_of fuel l g r (dset k v' acc)
  end.

(** typing.get_type_hints(cls, localns=l, include_extras=True): the __mro__ from its end,
    every class with the globals of its own module *)
Fixpoint hints_along (fuel : nat) (l : option scope) (modules : nat -> scope) (cs : list pyclass)
  (acc : dict value) : M memory (dict value) :=
  match cs with
  | [] => ret acc
  | c :: r =>
      let* acc' := hints_of fuel l (modules (k_module c)) (k_anns c) acc in
      hints_along fuel l modules r acc'
  end.
Definition get_type_hints (fuel : nat) (l : option scope) (modules : nat -> scope) (mro : list pyclass)
  : M memory (dict value) := hints_along fuel l modules (rev mro) [].

(** The hints that __init_subclass__ goes through -- records/record.py:100-105: localns has
    the class by its name and by its qualified name; names that are not annotated in the class
    itself are passed over.  [rest] is the __mro__ without the class. *)
Definition own_scope (c : pyclass) : scope := dset (k_qualname c) (k_obj c) (dset (k_name c) (k_obj c) []).
Definition class_hints (fuel : nat) (modules : nat -> scope) (c : pyclass) (rest : list pyclass)
  : M memory (dict value) :=
  let* hints := get_type_hints fuel (Some (own_scope c)) modules (c :: rest) in
  ret (filter (fun kv => dmem (fst kv) (k_anns c)) hints).

(** A class statement whose annotations are text: [d] is the statement as Classes.v sees it,
    [read] what the library sees in an annotation (its ClassVar, Final, types and metadata);
    the annotations of [d] are not looked at *)
Context {obj ty W : Type} (P : Py obj ty W).
Definition with_hints (d : @decl obj ty W) (anns : dict (@ann obj ty W)) : @decl obj ty W :=
  Decl (d_ty d) (d_frozen d) (d_ordered d) (d_unary d) (d_style d) anns []
       (d_static d) (d_bases d) (d_prebind d) (d_parsers d) (d_post_new d).
Definition create_named (fuel : nat) (modules : nat -> scope) (c : pyclass) (rest : list pyclass)
  (read : value -> @ann obj ty W) (d : @decl obj ty W) : M memory (@cls obj ty W) :=
  let* hints := class_hints fuel modules c rest in
  lift (make_class P (with_hints d (map (fun kv => (fst kv, read (snd kv))) hints))).
End Names.
Arguments expr : clear implicits.
Arguments value : clear implicits.
Arguments scope : clear implicits.
Arguments Lang : clear implicits.
Arguments memory : clear implicits.
Arguments pyclass : clear implicits.
Arguments XName {op}.
Arguments XText {op}.
Arguments XOp {op}.
Arguments VObj {V}.
Arguments VText {V}.
Arguments VRef {V}.
Arguments VAlias {V}.
