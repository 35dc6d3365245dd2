(** Statement.v -- class statements in which fields have the names that the class statement itself
    looks up: _fields, pre_bind, default_type_check_style, _default_type_check_style
    (records/record.py:96-158).

    Classes.v and Bodies.v take these lookups to find what RecordBase defines.  Here a field of that
    name is found, once it has been set on the class (records/record.py:113): a RecordField, which
    has no items, can not be indexed and can not be called (records/field.py).

    Simplifications: names with two underscores are not looked at; a class body does not define a
    method with the name of a field of its bases. *)
From Verif Require Import Base Py Filler Classes Bodies.
Open Scope string_scope.
Open Scope list_scope.

Section Statement.
Context {obj ty W : Type} (P : Py obj ty W).
Notation field := (@field obj ty W).
Notation filler := (@filler obj ty W).
Notation cls := (@cls obj ty W).
Notation decl := (@decl obj ty W).
Notation ann := (@ann obj ty W).

(** records/record.py:99-113: [hidden] says that [cls._fields] is a RecordField by now, so that
    [cls._fields[name] = field] fails.  Gives the fields, and [hidden]. *)
Fixpoint own_fields_n (d : decl) (hidden : bool) (l : dict ann) : outcome (dict field * bool) :=
  match l with
  | [] => Ok ([], hidden)
  | (k, a) :: r =>
      do f <- from_type_hint P (d_frozen d) (d_ty d) k (d_static d k) a;
      match f with
      | None => own_fields_n d hidden r
      | Some f =>
          if hidden then Raise (mkexc TypeError "'RecordField' object does not support item assignment") else
          do p <- own_fields_n d (String.eqb k "_fields") r;
          Ok ((k, f) :: fst p, snd p)
      end
  end.

(** is there a part of the filler that has no checking style of its own *)
Fixpoint unset_style (f : filler) : bool :=
  let unset a := style_eqb (a_style a) SDefault in
  match f with
  | FAnn a => unset a
  | FDumb _ => false
  | FUnion _ _ subs _ => existsb unset_style subs
  | FType _ a _ => unset a
  | FTupleN _ a subs => unset a || existsb unset_style subs
  | FTupleV _ a sub => unset a || unset_style sub
  | FIter _ _ a elt => unset a || unset_style elt
  | FMap _ _ a fk fv => unset a || unset_style fk || unset_style fv
  | FGenN _ a subs => unset a || existsb unset_style subs
  end.

(** [filler.bind(cls)] -- filler.py:212-219, get_filler.py:19-22 -- where
    [cls.default_type_check_style] is a RecordField ([asking]), or returns one ([odd]).
    Asking for the default style raises in the first case (simplification: it is another error if
    binding fails for another reason).  In the second case the style is none of
    the TypeCheckStyles: values that do not match exactly are refused or coerced, as with
    TypeCheckStyle.strict (filler.py:178-198).  Simplification: unlike strict, this style does not
    refuse abstract classes (std_fillers.py:249-253); here it does. *)
Definition bind_filler_n (asking odd : bool) (s : style) (f : filler) : outcome filler :=
  if asking
  then do f1 <- bind_filler P SDefault f;
       if unset_style f1 then Raise (mkexc TypeError "'RecordField' object is not callable") else Ok f1
  else bind_filler P (if odd then SStrict else s) f.

(** records/record.py:149-152 *)
Fixpoint bind_fields_n (asking odd : bool) (t : ty) (s : style) (fs : dict field) : outcome (dict field) :=
  match fs with
  | [] => Ok []
  | (k, f) :: r =>
      do f' <- (if ty_eqb P (f_owner f) t
                then do fl <- bind_filler_n asking odd s (f_filler f);
                     Ok (Field (f_name f) fl (f_default f) (f_owner f) (f_tags f))
                else Ok f);
      do r' <- bind_fields_n asking odd t s r;
      Ok ((k, f') :: r')
  end.

(** RecordBase.__init_subclass__ -- records/record.py:77-158.  [cls._fields] is read in 121, 125
    and 133, [cls.pre_bind] in 147; [cls._default_type_check_style] is set in 98, before the fields
    of the class are (113). *)
Definition statement (b : @body obj ty W) : outcome cls :=
  do p <- own_fields_n (decl_of b) false (own_hints (b_anns b) (b_inherited_anns b));
  let own := fst p in
  let inherited := flat_map base_fields (b_bases b) in
  if snd p then
    match inherited with
    | [] => Raise (mkexc AttributeError "'RecordField' object has no attribute 'items'")
    | _ => Raise (mkexc TypeError "argument of type 'RecordField' is not iterable")
    end
  else
  do parents <- inherit_fields own [] inherited;
  let fs := parents ++ own in
  match fs with
  | [] => Raise (mkexc ValueError "class has no fields")
  | _ =>
      let unary := match b_unary b with
                   | Some u => u
                   | None => negb (Nat.eqb (List.length (required_keys fs)) 1)
                   end in
      if dmem "pre_bind" fs then Raise (mkexc TypeError "'RecordField' object is not callable") else
      do fs1 <- apply_prebind P (b_prebind b) fs;
      do fs2 <- bind_fields_n (dmem "default_type_check_style" fs) (dmem "_default_type_check_style" own) (b_ty b) (b_style b) fs1;
      Ok (Cls (b_ty b) fs2 (match parents with [] => true | _ => false end)
              (b_frozen b) (b_ordered b) unary (b_style b)
              (find_parsers b (keys own)) (b_post_new b))
  end.
End Statement.
