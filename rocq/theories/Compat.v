(** Compat.v -- annotations as objects in the versions of Python that the package supports
    (pyproject.toml: 3.7 and later), and what records/utils/typing_compatible.py makes of them.
    Hints.v starts from annotations whose origin and arguments are known; here these are
    asked for. *)
From Verif Require Import Base Py Filler Hints Names.

(** Python 3.7, 3.8, 3.9 and later *)
Inductive version := V37 | V38 | V39.

Section Compat.
Context {obj ty W : Type}.
Notation meta := (@meta obj ty W).
Notation typing := (@typing obj ty W).

(** What a user writes as an annotation.  [WBare t n] is typing's alias of the class [t],
    which has [n] type variables, without parameters: List, Dict, Tuple, Type, ...; [WAlias] is
    the same with parameters.  [WText s] is the string 's'.
    Simplifications: the members of a Union are not equal to each other and no Unions, so
    that typing keeps them as they are; Final and ClassVar are in Declared.v; each Annotated is
    written where it is used. *)
Inductive written :=
| WClass (t : ty)
| WNone
| WAny
| WTypeVar
| WEllipsis
| WText (s : string)
| WNewType (w : written)
| WBare (t : ty) (n : nat)
| WAlias (t : ty) (ws : list written)
| WCallable (ps : option (list written))
| WUnion (ws : list written)
| WLiteral (lid : nat) (vals : list obj)
| WAnn (w : written) (ms : list meta).

(** The objects they become.  [OSpecial]: typing._GenericAlias with _special in 3.7 and 3.8,
    typing._SpecialGenericAlias in 3.9; [OAlias]: other instances of typing._GenericAlias;
    [OStdAnn]: typing._AnnotatedAlias; [OOwnAnn]: instances of the class Annotated of
    typing_compatible.py:26-35; [OMeta], [OValue]: objects that are no types but arguments;
    [ORef]: ForwardRef. *)
Inductive origin := ByClass (t : ty) | ByUnion | ByLiteral | ByCallable | ByAnnotated.
Inductive tobj :=
| OClass (t : ty)
| ONone
| OAny
| OTypeVar
| OEllipsis
| OText (s : string)
| ORef (s : string)
| ONewType (o : tobj)
| OSpecial (g : origin) (n : nat)
| OAlias (g : origin) (args : list tobj)
| OLiteral (lid : nat) (vals : list obj)
| OStdAnn (o : tobj) (ms : list meta)
| OOwnAnn (o : tobj) (ms : list meta)
| OMeta (m : meta)
| OValue (v : obj).

(** typing._type_check of a parameter: strings become forward references *)
Definition as_arg (o : tobj) : tobj := match o with OText s => ORef s | _ => o end.

(** Evaluating what is written.
    Annotated: in 3.9 that of typing, which merges Annotated of Annotated, and needs metadata;
    before, __class_getitem__ and __init__ of typing_compatible.py:26-32.  There is no Literal
    in 3.7. *)
Fixpoint make (v : version) (w : written) : outcome tobj :=
  match w with
  | WClass t => Ok (OClass t)
  | WNone => Ok ONone
  | WAny => Ok OAny
  | WTypeVar => Ok OTypeVar
  | WEllipsis => Ok OEllipsis
  | WText s => Ok (OText s)
  | WNewType w => do o <- make v w; Ok (ONewType o)
  | WBare t n => Ok (OSpecial (ByClass t) n)
  | WAlias t ws => do os <- mapO (make v) ws; Ok (OAlias (ByClass t) (map as_arg os))
  | WCallable None => Ok (OSpecial ByCallable 0)
  | WCallable (Some ws) => do os <- mapO (make v) ws; Ok (OAlias ByCallable (map as_arg os))
  | WUnion ws => do os <- mapO (make v) ws; Ok (OAlias ByUnion (map as_arg os))
  | WLiteral lid vals => match v with
                         | V37 => Raise (mkexc (UserExc 101 CtorStr) "ImportError: cannot import name 'Literal'")
                         | _ => Ok (OLiteral lid vals)
                         end
  | WAnn w ms =>
      do o <- make v w;
      match v with
      | V39 => match ms with
               | [] => Raise (mkexc TypeError "Annotated[...] should be used with at least two arguments")
               | _ => match as_arg o with
                      | OStdAnn o' ms' => Ok (OStdAnn o' (ms' ++ ms))
                      | o' => Ok (OStdAnn o' ms)
                      end
               end
      | _ => Ok (OOwnAnn o ms)
      end
  end.

(** typing.get_type_hints for one annotation: forward references are replaced in the objects
    that typing knows; typing_compatible.py:21 asks that of 3.9 to leave Annotated as it is.
    Simplification: text is the name of a class or not known; Names.v reads all text. *)
Context (names : string -> option ty).
Fixpoint resolve (o : tobj) : outcome tobj :=
  match o with
  | ORef s => match names s with Some t => Ok (OClass t) | None => Raise (mkexc NameError s) end
  | OAlias g args => do args' <- mapO resolve args; Ok (OAlias g args')
  | OStdAnn o ms => do o' <- resolve o; Ok (OStdAnn o' ms)
  | _ => Ok o
  end.
Definition type_hint (o : tobj) : outcome tobj := resolve (as_arg o).

(** the attributes __origin__ and __args__.  In 3.9 the special aliases have no __args__. *)
Definition attr_origin (o : tobj) : option origin :=
  match o with
  | OSpecial g _ | OAlias g _ => Some g
  | OLiteral _ _ => Some ByLiteral
  | OOwnAnn _ _ => Some ByAnnotated
  | _ => None
  end.
Definition attr_args (o : tobj) : option (list tobj) :=
  match o with
  | OSpecial _ n => Some (repeat OTypeVar n)
  | OAlias _ args => Some args
  | OLiteral _ vals => Some (map OValue vals)
  | OOwnAnn o ms => Some (o :: map OMeta ms)
  | _ => None
  end.
(** typing.get_origin and typing.get_args, of 3.8 and 3.9.
    Simplification: the parameters of Callable[[..], r] are in one list. *)
Definition typing_origin (v : version) (o : tobj) : option origin :=
  match o with
  | OSpecial g _ | OAlias g _ => Some g
  | OLiteral _ _ => Some ByLiteral
  | OStdAnn _ _ => Some ByAnnotated
  | _ => None
  end.
Definition typing_args (v : version) (o : tobj) : list tobj :=
  match o with
  | OAlias _ args => args
  | OLiteral _ vals => map OValue vals
  | OStdAnn o ms => o :: map OMeta ms
  | _ => []
  end.

(** get_origin -- typing_compatible.py:12-13 (3.7), 46-47 (3.8), 10 (3.9) *)
Definition get_origin (v : version) (o : tobj) : option origin :=
  match v with
  | V37 => attr_origin o
  | V38 => match typing_origin v o with Some g => Some g | None => attr_origin o end
  | V39 => typing_origin v o
  end.
(** get_args -- typing_compatible.py:15-16 (3.7), 49-52 (3.8), 10 (3.9); None: there are none *)
Definition get_args (v : version) (o : tobj) : option (list tobj) :=
  match v with
  | V37 => attr_args o
  | V38 => match o with
           | OSpecial ByCallable _ => Some []
           | _ => match typing_args v o with [] => attr_args o | args => Some args end
           end
  | V39 => Some (typing_args v o)
  end.
(** is_annotation -- typing_compatible.py:23-24 (3.9), 39-40 *)
Definition is_annotation (v : version) (o : tobj) : bool :=
  match v, o with
  | V39, OStdAnn _ _ => true
  | V39, _ => false
  | _, OOwnAnn _ _ => true
  | _, _ => false
  end.
(** split_annotation -- typing_compatible.py:55-59 *)
Definition split_annotation (v : version) (o : tobj) : tobj * list tobj :=
  if is_annotation v o then
    match get_args v o with
    | Some (t :: args) => (t, args)
    | _ => (o, [])
    end
  else (o, []).

Definition metas (os : list tobj) : list meta :=
  flat_map (fun o => match o with OMeta m => [m] | _ => [] end) os.
Definition values (os : list tobj) : list obj :=
  flat_map (fun o => match o with OValue x => [x] | _ => [] end) os.

(** What the checkers of get_annotated_filler (get_filler.py:41-70, _typing,
    typing_fillers.py:420-444) are told about an annotation, as a tree of Hints.v, and
    get_filler, get_filler.py:31-38, for what is in it.  An Annotated that is the type of an
    Annotated is no type to them.  [fuel] bounds the depth. *)
Fixpoint seen (fuel : nat) (v : version) (o : tobj) : outcome typing :=
  match fuel with
  | O => Raise (mkexc RecursionError "")
  | S n =>
      let origin (t : tobj) : outcome typing :=
        match t with
        | ONewType o' => do y <- seen n v o'; Ok (YNewType y)
        | OAny => Ok YAny
        | _ =>
            let args := match get_args v t with Some l => l | None => [] end in
            match get_origin v t with
            | Some ByUnion => do ys <- mapO (seen n v) args; Ok (YUnion ys)
            | Some ByLiteral => Ok (match t with OLiteral lid _ => YLiteral lid (values args) | _ => YOther end)
            | Some ByCallable => Ok YCallable
            | Some (ByClass c) => do ys <- mapO (seen n v) args; Ok (YAlias c ys)
            | Some ByAnnotated => Ok YOther
            | None => Ok (match t with
                          | OClass c => YClass c
                          | ONone => YNone
                          | OTypeVar => YTypeVar
                          | OEllipsis => YEllipsis
                          | _ => YOther
                          end)
            end
        end in
      let (t, args) := split_annotation v o in
      do y <- origin t;
      Ok (match args with [] => y | _ => YAnn y (metas args) end)
  end.

(** the annotation that the fields of a class have on a version of Python *)
Definition meaning (fuel : nat) (v : version) (w : written) : outcome typing :=
  do o <- make v w; do o' <- type_hint o; seen fuel v o'.
End Compat.

Arguments WClass {obj ty W}. Arguments WNone {obj ty W}. Arguments WAny {obj ty W}. Arguments WTypeVar {obj ty W}.
Arguments WEllipsis {obj ty W}. Arguments WText {obj ty W}. Arguments WNewType {obj ty W}. Arguments WBare {obj ty W}.
Arguments WAlias {obj ty W}. Arguments WCallable {obj ty W}. Arguments WUnion {obj ty W}. Arguments WLiteral {obj ty W}.
Arguments WAnn {obj ty W}.
