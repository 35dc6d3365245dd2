(** Classes.v -- model of how record classes come to be: RecordField
    (records/field.py:21-239) and RecordBase.__init_subclass__ (records/record.py:77-158).

    A record class is a value of type [cls]; [make_class] turns a class statement into
    such a value or an exception. *)
From Verif Require Import Base Py Filler.

Section Classes.
Context {obj ty W : Type} (P : Py obj ty W).
Notation token := (@token obj ty W).
Notation hint := (@hint obj ty W).
Notation filler := (@filler obj ty W).

(** The default of a field: none, an object, or a Factory -- records/field.py:21-27, 51-54,
    94-98.  Calling a factory runs user code. *)
Inductive default :=
| NoDefault
| DefVal (v : obj)
| DefFactory (f : M W obj).

(** RecordField -- records/field.py:30-63.  A Tag is known by what it is equal to
    (records/tags.py:15-17: equal inner objects), so tags are numbered by their equality
    class. *)
Record field := Field {
  f_name : string;
  f_filler : filler;
  f_default : default;
  f_owner : ty;
  f_tags : list nat
}.

(** RecordField.has_default -- records/field.py:77-82 *)
Definition has_default (f : field) : bool :=
  match f_default f with NoDefault => false | _ => true end.

(** RecordField.make_default -- records/field.py:65-75.  On a field without default Python
    returns the NO_DEFAULT object; the library never does that. *)
Definition make_default (f : field) : M W obj :=
  match f_default f with
  | DefVal v => ret v
  | DefFactory g => g
  | NoDefault => raise (mkexc PlainException "no default")
  end.

(** The parsers a class can have -- records/record.py:431-505 and user functions marked
    with @parser (30-39) *)
Inductive parser :=
| PFromInstance
| PFromJson
| PFromMapping
| PUser (f : obj -> M W obj).

(** A record class: what __init_subclass__ stores on it.  [c_fields] is [_fields];
    [c_field_dict] says whether [_fields] is a FieldDict, which has filter_by_tag.
    [_required_keys] and [_optional_keys] are computed from the fields below. *)
Record cls := Cls {
  c_ty : ty;
  c_fields : dict field;
  c_field_dict : bool;
  c_frozen : bool;
  c_ordered : bool;
  c_unary : bool;
  c_style : style;
  c_parsers : list parser;
  c_post_new : obj -> M W obj
}.

(** cls._required_keys, cls._optional_keys -- records/record.py:133-134.  Both are sets;
    the lists are in field order. *)
Definition required_keys (fs : dict field) : list string :=
  keys (filter (fun kf => negb (has_default (snd kf))) fs).
Definition optional_keys (fs : dict field) : list string :=
  filter (fun k => negb (smem k (required_keys fs))) (keys fs).

(** ** Annotations *)

(** an argument of Annotated: a token for the filler, or a Tag *)
Inductive arg :=
| ATok (t : token)
| ATag (n : nat).

(** A type hint of a class body.  [AHint h args] is Annotated[h, *args], or [h] itself if
    there are no arguments; [AFinal a args] is Annotated[Final[a], *args]. *)
Inductive ann :=
| ARawFinal
| AClassVar
| AFinal (a : ann) (args : list arg)
| AHint (h : hint) (args : list arg).

(** what a filler sees of an argument: a Tag means nothing to it *)
Definition arg_token (a : arg) : token := match a with ATok t => t | ATag _ => TOther end.

Definition full_hint (h : hint) (args : list arg) : hint :=
  match args with [] => h | _ => HAnn h (map arg_token args) end.

(** RecordField._apply over a list -- records/field.py:124-125, 222-224: tags is a set *)
Definition add_tag (ts : list nat) (n : nat) : list nat :=
  if existsb (Nat.eqb n) ts then ts else ts ++ [n].
Definition add_tags (args : list arg) (ts : list nat) : list nat :=
  fold_left (fun acc a => match a with ATag n => add_tag acc n | ATok _ => acc end) args ts.

(** RecordField.from_type_hint -- records/field.py:100-126; None is SKIP_FIELD.  The
    arguments of an Annotated around Final are only looked at for tags. *)
Fixpoint from_type_hint (frozen : bool) (owner : ty) (name : string) (d : default) (a : ann)
  : outcome (option field) :=
  match a with
  | ARawFinal => Raise (mkexc TypeError "raw Final cannot be use inside records")
  | AClassVar => Ok None
  | AFinal a' args =>
      if negb frozen then Raise (mkexc TypeError "cannot declare Final field in non-frozen Record") else
      do r <- from_type_hint frozen owner name d a';
      match r with
      | Some f => Ok (Some (Field (f_name f) (f_filler f) (f_default f) (f_owner f) (add_tags args (f_tags f))))
      | None => match args with [] => Ok None | _ => Raise (mkexc AttributeError "_apply") end
      end
  | AHint h args =>
      do fl <- get_filler P (full_hint h args);
      Ok (Some (Field name fl d owner (add_tags args [])))
  end.

(** ** Class creation *)

(** a base class: a record class, or RecordBase or any other class *)
Inductive base :=
| BRecord (c : cls)
| BOther.

(** A class statement.  [d_anns] are its own annotations in order, [d_inherited_anns] the
    names annotated anywhere in its bases, in the order typing.get_type_hints visits them,
    [d_static] what getattr_static finds for a name on the class before it is set up
    (NoDefault if nothing).  [d_prebind] is what its pre_bind does, own or inherited: the
    tokens it applies, in order, each to a field and a sub-filler key.  [d_parsers] are
    the user functions marked as parsers that dir(cls) finds, by name.  Simplification:
    pre_bind does nothing else, and the parsers of RecordBase are not overridden. *)
Record decl := Decl {
  d_ty : ty;
  d_frozen : bool;
  d_ordered : bool;
  d_unary : option bool;
  d_style : style;
  d_anns : dict ann;
  d_inherited_anns : list string;
  d_static : string -> default;
  d_bases : list base;
  d_prebind : list (string * (option nat * token));
  d_parsers : dict (obj -> M W obj);
  d_post_new : obj -> M W obj
}.

(** the items of get_type_hints(cls) whose names are among the class's own annotations --
    records/record.py:101-105: get_type_hints goes through the bases first, and a name
    that is annotated again keeps its place ([firsts]: once each, where they come first) *)
Fixpoint firsts (l : list string) : list string :=
  match l with
  | [] => []
  | k :: r => k :: filter (fun k' => negb (String.eqb k k')) (firsts r)
  end.
Definition own_hints (anns : dict ann) (inherited : list string) : dict ann :=
  flat_map (fun k => match dget k anns with Some a => [(k, a)] | None => [] end)
           (firsts inherited)
  ++ filter (fun ka => negb (smem (fst ka) inherited)) anns.

(** records/record.py:99-113 *)
Fixpoint own_fields (d : decl) (l : dict ann) : outcome (dict field) :=
  match l with
  | [] => Ok []
  | (k, a) :: r =>
      do f <- from_type_hint (d_frozen d) (d_ty d) k (d_static d k) a;
      do fs <- own_fields d r;
      Ok (match f with Some f => (k, f) :: fs | None => fs end)
  end.

(** records/record.py:116-123: [seen] is parent_fields *)
Fixpoint inherit_fields (own seen l : dict field) : outcome (dict field) :=
  match l with
  | [] => Ok seen
  | (k, f) :: r =>
      if dmem k own || dmem k seen
      then Raise (mkexc ValueError ("cannot override inherited field " ++ k)%string)
      else inherit_fields own (seen ++ [(k, f)]) r
  end.

Definition base_fields (b : base) : dict field :=
  match b with BRecord c => c_fields c | BOther => [] end.

(** RecordField._apply_to_filler -- records/field.py:128-130, reached through cls.<name> *)
Definition apply_op (fs : dict field) (o : string * (option nat * token)) : outcome (dict field) :=
  let '(k, (key, t)) := o in
  match dget k fs with
  | None => Raise (mkexc AttributeError k)
  | Some f =>
      do fl <- apply_at P key t (f_filler f);
      Ok (dset k (Field (f_name f) fl (f_default f) (f_owner f) (f_tags f)) fs)
  end.

Fixpoint apply_prebind (ops : list (string * (option nat * token))) (fs : dict field) : outcome (dict field) :=
  match ops with
  | [] => Ok fs
  | o :: r => do fs1 <- apply_op fs o; apply_prebind r fs1
  end.

(** records/record.py:149-152: the fillers of the fields this class owns are bound *)
Fixpoint bind_fields (t : ty) (s : style) (fs : dict field) : outcome (dict field) :=
  match fs with
  | [] => Ok []
  | (k, f) :: r =>
      do f' <- (if ty_eqb P (f_owner f) t
                then do fl <- bind_filler P s (f_filler f); Ok (Field (f_name f) fl (f_default f) (f_owner f) (f_tags f))
                else Ok f);
      do r' <- bind_fields t s r;
      Ok ((k, f') :: r')
  end.

(** sorted by name, as dir() gives them *)
Fixpoint insert_name {A} (k : string) (v : A) (l : list (string * A)) : list (string * A) :=
  match l with
  | [] => [(k, v)]
  | (k', v') :: r => if String.leb k k' then (k, v) :: l else (k', v') :: insert_name k v r
  end.
Definition sort_names {A} (l : list (string * A)) : list (string * A) :=
  fold_right (fun kv acc => insert_name (fst kv) (snd kv) acc) [] l.

(** records/record.py:154-158 *)
Definition class_parsers (user : dict (obj -> M W obj)) : list parser :=
  map snd (sort_names ([("from_instance", PFromInstance); ("from_json", PFromJson); ("from_mapping", PFromMapping)]%string
                       ++ map (fun kf => (fst kf, PUser (snd kf))) user)).

(** RecordBase.__init_subclass__ -- records/record.py:77-158.  The warnings of 92-94 and
    127-128 are not modelled. *)
Definition make_class (d : decl) : outcome cls :=
  do own <- own_fields d (own_hints (d_anns d) (d_inherited_anns d));
  do parents <- inherit_fields own [] (flat_map base_fields (d_bases d));
  let fs := parents ++ own in
  match fs with
  | [] => Raise (mkexc ValueError "class has no fields")
  | _ =>
      let unary := match d_unary d with
                   | Some b => b
                   | None => negb (Nat.eqb (List.length (required_keys fs)) 1)
                   end in
      do fs1 <- apply_prebind (d_prebind d) fs;
      do fs2 <- bind_fields (d_ty d) (d_style d) fs1;
      Ok (Cls (d_ty d) fs2 (match parents with [] => true | _ => false end)
              (d_frozen d) (d_ordered d) unary (d_style d)
              (class_parsers (d_parsers d)) (d_post_new d))
  end.

(** FieldDict.filter_by_tag -- records/field.py:232-239; [_fields] of a class that
    inherits fields is a plain dict (records/record.py:124-125), which has no such method *)
Definition filter_by_tag (c : cls) (t : nat) : outcome (dict field) :=
  if c_field_dict c
  then Ok (filter (fun kf => existsb (Nat.eqb t) (f_tags (snd kf))) (c_fields c))
  else Raise (mkexc AttributeError "filter_by_tag").

End Classes.

Arguments NoDefault {obj W}.
Arguments DefVal {obj W}.
Arguments DefFactory {obj W}.
Arguments PFromInstance {obj W}.
Arguments PFromJson {obj W}.
Arguments PFromMapping {obj W}.
Arguments PUser {obj W}.
Arguments ATok {obj ty W}.
Arguments ATag {obj ty W}.
Arguments ARawFinal {obj ty W}.
Arguments AClassVar {obj ty W}.
Arguments AFinal {obj ty W}.
Arguments AHint {obj ty W}.
Arguments BRecord {obj ty W}.
Arguments BOther {obj ty W}.
