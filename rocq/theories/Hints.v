(** Hints.v -- annotations and their metadata as the user writes them, and how the fillers
    read them: records/fillers/get_filler.py, records/fillers/util.py and the checkers of
    records/fillers/builtin_fillers.  Python 3.9 or later is assumed, where Annotated and
    get_type_hints come from the standard library (typing_compatible.py:19-26). *)
From Verif Require Import Base Py Filler.

Section Hints.
Context {obj ty W : Type} (P : Py obj ty W).
Notation callback := (@callback obj W).
Notation ctoken := (@ctoken obj ty W).
Notation vtoken := (@vtoken obj ty W).
Notation token := (@token obj ty W).
Notation hint := (@hint obj ty W).

(** ** Metadata *)

(** what calling an object without arguments returns: None, a coercion token, a validation
    token, another callable ([g origin] is what it returns for the origin and the filler), or
    something that cannot be called *)
Inductive product :=
| MadeNone
| MadeCoercer (c : ctoken)
| MadeValidator (v : vtoken)
| MadeCallable (g : @origin ty -> outcome callback)
| MadeOther.

(** The arguments of Annotated after the type: type checking styles, instances and subclasses
    of CoercionToken and ValidationToken, other objects that have an attribute __wrapped__
    (functools.wraps sets it; std_fillers.py:230-236 relies on that), and the rest: tags, doc
    strings, plain functions, ...
    A class that is a token class and has __wrapped__, but is no subclass of CoercionToken, is
    an [MWrapped].  Simplifications: calling a class or a wrapper has no side effects and gives
    the same whenever it is done; None is not __wrapped__ by anything. *)
Inductive meta :=
| MStyle (s : style)
| MCoercer (c : ctoken)
| MCoercerClass (mk : outcome ctoken)
| MValidator (v : vtoken)
| MValidatorClass (mk : outcome vtoken)
| MWrapped (mk : outcome product)
| MOther.

(** [_as_instance(token, CoercionToken)] -- util.py:6-20.  What a wrapper returns is not looked
    at: get_coercer (filler.py:249-258) calls it if it can be called, whatever it is *)
Definition as_coercer (m : meta) : outcome (option ctoken) :=
  match m with
  | MCoercer c => Ok (Some c)
  | MCoercerClass mk => do c <- mk; Ok (Some c)
  | MWrapped mk => do p <- mk;
      Ok (match p with
          | MadeNone => None
          | MadeCoercer c => Some c
          | MadeValidator (VGlobal g) | MadeCallable g => Some (CGlobal g)
          | MadeValidator VBad | MadeOther => Some CBad
          end)
  | _ => Ok None
  end.

(** [_as_instance(token, ValidationToken)] -- util.py:6-20 *)
Definition as_validator (m : meta) : outcome (option vtoken) :=
  match m with
  | MValidator v => Ok (Some v)
  | MValidatorClass mk => do v <- mk; Ok (Some v)
  | MWrapped mk => do p <- mk;
      Ok (match p with
          | MadeNone => None
          | MadeValidator v => Some v
          | MadeCoercer (CGlobal g) | MadeCallable g => Some (VGlobal g)
          | MadeCoercer _ | MadeOther => Some VBad
          end)
  | _ => Ok None
  end.

(** AnnotatedFiller.apply -- filler.py:226-238.  An error while a token class is called
    surfaces when the token is applied, which is when its callback is asked for *)
Definition meta_token (m : meta) : token :=
  match m with
  | MStyle s => TStyle s
  | _ =>
      match as_coercer m with
      | Raise e => TCoerce (CGlobal (fun _ => Raise e))
      | Ok (Some c) => TCoerce c
      | Ok None =>
          match as_validator m with
          | Raise e => TValid (VGlobal (fun _ => Raise e))
          | Ok (Some v) => TValid v
          | Ok None => TOther
          end
      end
  end.

(** ComposeCoercer.__init__ -- coercers.py:115-126; None is no token, so that get_coercer
    refuses it when the class is created *)
Definition compose (ms : list meta) : outcome ctoken :=
  do cs <- mapO as_coercer ms;
  Ok (CCompose (map (fun c => match c with Some c => c | None => CBad end) cs)).

(** ** Annotations *)

(** What genric_origin_map holds for a class -- typing_fillers.py:391-412; the entry of [type]
    is never used, as _typing asks for [type] first (430-433) *)
Inductive generic_kind :=
| GTuple
| GIter (rk : rebuild_kind)
| GMap (rk : rebuild_kind)
| GOther.

(** The annotations.  [YAlias t ps] is an object whose get_origin is the class [t] and whose
    get_args are [ps]: List[int], list[int], Dict, ...; [YCallable] those whose get_origin is
    collections.abc.Callable, with and without parameters, and the built-in function
    [callable]; [YEllipsis] is the ... of Tuple[T, ...]; [YOther] is whatever else can be
    written as an annotation: X | Y, Foo[int] for generic classes Foo of the user, (), ...
    Final and ClassVar are in Classes.v.
    Simplifications: an iterable has one parameter, a mapping two; aliases X[..] of classes
    that genric_origin_map does not know, written without typing, are [YOther], though they
    raise TypeError in get_filler.py:64 on Python 3.9 and 3.10. *)
Inductive typing :=
| YClass (t : ty)
| YNone
| YAny
| YCallable
| YTypeVar
| YEllipsis
| YOther
| YNewType (y : typing)
| YUnion (ys : list typing)
| YLiteral (lid : nat) (vals : list obj)
| YAlias (t : ty) (ps : list typing)
| YAnn (y : typing) (ms : list meta).

(** [gmap]: genric_origin_map; [special]: what issubclass makes of the parameter of Type[..]
    if it is no class (Any, a Union, ...) *)
Record Typing := { gmap : ty -> option generic_kind; special : ty }.
Context (T : Typing).

(** has_args -- typing_fillers.py:415-417 *)
Definition is_typevar (y : typing) : bool := match y with YTypeVar => true | _ => false end.
Definition has_args (ps : list typing) : bool := existsb (fun p => negb (is_typevar p)) ps.

(** get_filler and get_annotated_filler -- get_filler.py:31-70, with the checkers
    std_fillers.py:368-377 and _typing, typing_fillers.py:420-444 *)
Fixpoint hint_of (y : typing) : hint :=
  match y with
  | YClass t => HTy t
  | YNone => HNone
  | YAny => HAny
  | YCallable => HCallable
  | YTypeVar | YEllipsis | YOther => HOther
  | YNewType y' => HNewType (hint_of y')
  | YUnion ys => HUnion (map hint_of ys)
  | YLiteral lid vals => HLiteral lid vals
  | YAlias t ps =>
      if has_args ps then
        if ty_eqb P t (t_type P) then HType (match ps with YClass b :: _ => b | _ => special T end)
        else
          match gmap T t, ps with
          | Some GTuple, [p; YEllipsis] => HTupleV (hint_of p)
          | Some GTuple, _ => HTupleN (map hint_of ps)
          | Some (GIter rk), p :: _ => HIter rk t (hint_of p)
          | Some (GMap rk), [k; v] => HMap rk t (hint_of k) (hint_of v)
          | Some GOther, _ => HGenN t (map hint_of ps)
          | _, _ => HOther
          end
      else HBare t
  | YAnn y' ms => HAnn (hint_of y') (map meta_token ms)
  end.

End Hints.

Arguments MadeNone {obj ty W}.
Arguments MadeCoercer {obj ty W}.
Arguments MadeValidator {obj ty W}.
Arguments MadeCallable {obj ty W}.
Arguments MadeOther {obj ty W}.
Arguments MStyle {obj ty W}.
Arguments MCoercer {obj ty W}.
Arguments MCoercerClass {obj ty W}.
Arguments MValidator {obj ty W}.
Arguments MValidatorClass {obj ty W}.
Arguments MWrapped {obj ty W}.
Arguments MOther {obj ty W}.
Arguments YClass {obj ty W}.
Arguments YNone {obj ty W}.
Arguments YAny {obj ty W}.
Arguments YCallable {obj ty W}.
Arguments YTypeVar {obj ty W}.
Arguments YEllipsis {obj ty W}.
Arguments YOther {obj ty W}.
Arguments YNewType {obj ty W}.
Arguments YUnion {obj ty W}.
Arguments YLiteral {obj ty W}.
Arguments YAlias {obj ty W}.
Arguments YAnn {obj ty W}.
Arguments gmap {ty}.
Arguments special {ty}.
