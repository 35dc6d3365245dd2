(** Base.v -- Python values that every part of the model shares: exceptions,
    computations that may raise, and insertion-ordered string-keyed dicts.

    This file models the Python run time that bentheiii/Records relies on; it
    has no counterpart of its own in /repo except where a comment says so. *)
From Coq Require Export List String ZArith Bool Lia Permutation.
Export ListNotations.
Open Scope list_scope.

(** ** Exceptions *)

(** How an exception class behaves when it is called with one string, which is
    what records/record.py:221-224 does to rewrap an error. *)
Inductive ctor_kind :=
| CtorStr            (* type(e)(msg) builds an instance of the class          *)
| CtorTypeError      (* type(e)(msg) raises TypeError (UnicodeDecodeError...) *)
| CtorFails (n : nat).  (* type(e)(msg) raises another exception: [UserExc n] stands for it *)

(** Exception classes. [UserExc] is any other class right below [Exception];
    [NotException] is a [BaseException] that is not an [Exception]
    (KeyboardInterrupt, SystemExit, GeneratorExit), which no [except Exception]
    clause of the library catches; [SubExc] is a class with other exception classes as
    bases.  [ParseFailure] is records/record.py:42-46. *)
Inductive exc_class :=
| TypeError | ValueError | KeyError | AttributeError | LookupError | RuntimeError
| RecursionError | ZeroDivisionError | OverflowError | ParseFailure | PlainException
| UserExc (n : nat) (c : ctor_kind)
| NotException (n : nat)
| SubExc (n : nat) (bases : list exc_class) (c : ctor_kind).

(** An exception instance: class, message and [__cause__] (raise ... from e). *)
Inductive exc := Exc (cls : exc_class) (msg : string) (cause : option exc).

Definition exc_cls (e : exc) : exc_class := let 'Exc c _ _ := e in c.
Definition exc_msg (e : exc) : string := let 'Exc _ m _ := e in m.
Definition exc_cause (e : exc) : option exc := let 'Exc _ _ c := e in c.

Definition mkexc (c : exc_class) (m : string) : exc := Exc c m None.

(** whether a class, or one it descends from, is one of [p] *)
Fixpoint descends_from (p : exc_class -> bool) (c : exc_class) : bool :=
  p c || match c with SubExc _ bs _ => existsb (descends_from p) bs | _ => false end.

(** isinstance(e, Exception) *)
Definition is_Exception (e : exc) : bool :=
  descends_from (fun c => match c with NotException _ | SubExc _ _ _ => false | _ => true end) (exc_cls e).

(** isinstance(e, ParseFailure), and so on: what [except ParseFailure] catches *)
Definition is_ParseFailure (e : exc) : bool :=
  descends_from (fun c => match c with ParseFailure => true | _ => false end) (exc_cls e).
Definition is_AttributeError (e : exc) : bool :=
  descends_from (fun c => match c with AttributeError => true | _ => false end) (exc_cls e).
Definition is_KeyError (e : exc) : bool :=
  descends_from (fun c => match c with KeyError => true | _ => false end) (exc_cls e).
Definition is_ValueError (e : exc) : bool :=
  descends_from (fun c => match c with ValueError => true | _ => false end) (exc_cls e).

(** what calling the class of an exception with one string does *)
Definition exc_ctor (c : exc_class) : ctor_kind :=
  match c with UserExc _ k | SubExc _ _ k => k | _ => CtorStr end.

(** ** Computations that may raise *)

Inductive outcome (A : Type) :=
| Ok (a : A)
| Raise (e : exc).
Arguments Ok {A} a.
Arguments Raise {A} e.

Definition obind {A B} (m : outcome A) (k : A -> outcome B) : outcome B :=
  match m with Ok a => k a | Raise e => Raise e end.

Definition is_ok {A} (m : outcome A) : bool :=
  match m with Ok _ => true | Raise _ => false end.

Notation "'do' x <- m ; k" := (obind m (fun x => k))
  (at level 200, x name, m at level 100, k at level 200, right associativity).

(** A computation that reads and writes a world of type [W] and may raise.  A
    Python call that raises keeps the effects it had before raising. *)
Definition M (W A : Type) := W -> outcome A * W.

Definition ret {W A} (a : A) : M W A := fun w => (Ok a, w).
Definition raise {W A} (e : exc) : M W A := fun w => (Raise e, w).
Definition bind {W A B} (m : M W A) (k : A -> M W B) : M W B :=
  fun w => match m w with
           | (Ok a, w') => k a w'
           | (Raise e, w') => (Raise e, w')
           end.
Definition lift {W A} (o : outcome A) : M W A := fun w => (o, w).

Notation "'let*' x := m 'in' k" := (bind m (fun x => k))
  (at level 200, x name, m at level 100, k at level 200, right associativity).

(** [try: m  except Exception as e: h e] *)
Definition catch {W A} (m : M W A) (h : exc -> M W A) : M W A :=
  fun w => match m w with
           | (Ok a, w') => (Ok a, w')
           | (Raise e, w') => if is_Exception e then h e w' else (Raise e, w')
           end.

(** [for x in l: acc.append(f(x))] *)
Fixpoint mapM {W A B} (f : A -> M W B) (l : list A) : M W (list B) :=
  match l with
  | [] => ret []
  | x :: r => let* y := f x in let* ys := mapM f r in ret (y :: ys)
  end.

(** the same for computations without a world *)
Section MapO.
Context {A B : Type} (f : A -> outcome B).
Fixpoint mapO (l : list A) : outcome (list B) :=
  match l with
  | [] => Ok []
  | x :: r => do y <- f x; do ys <- mapO r; Ok (y :: ys)
  end.
End MapO.

(** ** dict[str, A]: insertion-ordered, unique keys *)

Definition dict (A : Type) := list (string * A).

Definition keys {A} (d : dict A) : list string := map fst d.
Definition dvalues {A} (d : dict A) : list A := map snd d.

(** d[k] / d.get(k) *)
Fixpoint dget {A} (k : string) (d : dict A) : option A :=
  match d with
  | [] => None
  | (k', v) :: r => if String.eqb k k' then Some v else dget k r
  end.

(** k in d *)
Definition dmem {A} (k : string) (d : dict A) : bool :=
  match dget k d with Some _ => true | None => false end.

(** d[k] = v: an existing key keeps its place, a new key goes to the end *)
Fixpoint dset {A} (k : string) (v : A) (d : dict A) : dict A :=
  match d with
  | [] => [(k, v)]
  | (k', v') :: r => if String.eqb k k' then (k', v) :: r else (k', v') :: dset k v r
  end.

(** d.pop(k, None) / del d[k], the removal itself *)
Fixpoint ddel {A} (k : string) (d : dict A) : dict A :=
  match d with
  | [] => []
  | (k', v') :: r => if String.eqb k k' then r else (k', v') :: ddel k r
  end.

(** d.update(e) *)
Definition dupdate {A} (d e : dict A) : dict A :=
  fold_left (fun acc kv => dset (fst kv) (snd kv) acc) e d.

(** the invariant that makes an association list a dict *)
Definition dict_ok {A} (d : dict A) : Prop := NoDup (keys d).

Definition smem (k : string) (l : list string) : bool := existsb (String.eqb k) l.
