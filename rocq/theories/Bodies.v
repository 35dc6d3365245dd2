(** Bodies.v -- class statements with their namespaces: where the defaults and the parsers of
    a class come from (records/record.py:99-113, 154-158).

    Classes.v is given what getattr_static and dir find; here both are modelled. *)
From Verif Require Import Base Py Filler Classes.

Section Bodies.
Context {obj ty W : Type} (P : Py obj ty W).
Notation parser := (@parser obj W).
Notation default := (@default obj W).
Notation cls := (@cls obj ty W).

(** What a class has under a name: an object; whether it is a Factory (records/field.py:21-27);
    whether it was marked with @parser (records/record.py:30-39), and what calling it as an
    attribute of the class does then. *)
Record entry := Entry {
  n_obj : obj;
  n_factory : option (M W obj);
  n_parser : option parser
}.

(** the __dict__ of a class *)
Definition namespace := dict entry.

(** A class statement for a record class.  [b_body] is its namespace before it is set up,
    [b_mro] the namespaces of the other classes of its __mro__, in that order (RecordBase
    and object among them), [b_meta] those of its metaclass.  [b_field k] is the RecordField
    object for [k].  The rest is as in [decl]. *)
Record body := Body {
  b_ty : ty;
  b_frozen : bool;
  b_ordered : bool;
  b_unary : option bool;
  b_style : style;
  b_anns : dict (@ann obj ty W);
  b_inherited_anns : list string;
  b_body : namespace;
  b_mro : list namespace;
  b_meta : list namespace;
  b_field : string -> obj;
  b_bases : list (@base obj ty W);
  b_prebind : list (string * (option nat * @token obj ty W));
  b_post_new : obj -> M W obj
}.

(** the first of the namespaces that has the name *)
Fixpoint find_in (l : list namespace) (k : string) : option entry :=
  match l with
  | [] => None
  | n :: r => match dget k n with Some e => Some e | None => find_in r k end
  end.

(** inspect.getattr_static(cls, name): the __mro__ of the class, then that of its metaclass.
    Simplification: data descriptors of the metaclass do not come first. *)
Definition getattr_static (own : namespace) (b : body) (k : string) : option entry :=
  find_in (own :: b_mro b ++ b_meta b) k.

(** RecordField._apply_factory -- records/field.py:94-98 *)
Definition entry_default (e : option entry) : default :=
  match e with
  | None => NoDefault
  | Some e => match n_factory e with Some g => DefFactory g | None => DefVal (n_obj e) end
  end.

(** setattr(cls, name, field) for its own fields -- records/record.py:111-113 *)
Definition with_fields (b : body) (fs : list string) : namespace :=
  fold_left (fun n k => dset k (Entry (b_field b k) None None) n) fs (b_body b).

(** dir(cls): the names in the namespaces of the __mro__, sorted, once each *)
Fixpoint insert_str (k : string) (l : list string) : list string :=
  match l with
  | [] => [k]
  | k' :: r => if String.leb k k' then k :: l else k' :: insert_str k r
  end.
Definition sort_strings (l : list string) : list string := fold_right insert_str [] l.
Definition dir (l : list namespace) : list string := sort_strings (nodup string_dec (flat_map keys l)).

(** cls._parsers -- records/record.py:154-158, once its own fields [fs] are set *)
Definition find_parsers (b : body) (fs : list string) : list parser :=
  let own := with_fields b fs in
  flat_map (fun k => match getattr_static own b k with
                     | Some e => match n_parser e with Some p => [p] | None => [] end
                     | None => []
                     end) (dir (own :: b_mro b)).

(** the class statement as Classes.v sees it, but for the parsers *)
Definition decl_of (b : body) : @decl obj ty W :=
  Decl (b_ty b) (b_frozen b) (b_ordered b) (b_unary b) (b_style b) (b_anns b) (b_inherited_anns b)
       (fun k => entry_default (getattr_static (b_body b) b k))
       (b_bases b) (b_prebind b) [] (b_post_new b).

(** RecordBase.__init_subclass__ -- records/record.py:77-158 *)
Definition own_names (b : body) : list string :=
  match own_fields P (decl_of b) (own_hints (b_anns b) (b_inherited_anns b)) with Ok fs => keys fs | Raise _ => [] end.
Definition create (b : body) : outcome cls :=
  do c <- make_class P (decl_of b);
  Ok (Cls (c_ty c) (c_fields c) (c_field_dict c) (c_frozen c) (c_ordered c) (c_unary c) (c_style c)
          (find_parsers b (own_names b)) (c_post_new c)).

(** the namespace of the class afterwards *)
Definition namespace_of (b : body) : namespace := with_fields b (own_names b).
End Bodies.
Arguments Entry {obj W}.
Arguments n_obj {obj W}.
Arguments n_factory {obj W}.
Arguments n_parser {obj W}.
