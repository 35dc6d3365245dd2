(** Declared.v -- the annotations of fields as Python objects: ClassVar, Final, Annotated and types.
    records/field.py:100-126 on them; Classes.v has them sorted by what they mean. *)
From Verif Require Import Base Py Filler Hints Classes.

Section Declared.
Context {obj ty W : Type} (P : Py obj ty W) (T : @Typing ty).
Notation arg := (@arg obj ty W).
Notation ann := (@ann obj ty W).
Notation field := (@field obj ty W).
Notation default := (@default obj W).

(** [x: ClassVar], [x: Final], [x: ClassVar[..]], [x: Final[..]], [x: T], and Annotated of these.
    (typing makes Annotated[Annotated[T, a], b] into Annotated[T, a, b], and Annotated has
    at least one argument.) *)
Inductive plain :=
| PClassVar
| PFinal
| PClassVarOf (d : declared)
| PFinalOf (d : declared)
| PType (y : @typing obj ty W)
with declared :=
| Plain (p : plain)
| Annotated (p : plain) (a : arg) (args : list arg).

(** split_annotation -- records/utils/typing_compatible.py:54-58 *)
Definition split (d : declared) : plain * list arg :=
  match d with Plain p => (p, []) | Annotated p a args => (p, a :: args) end.

(** get_filler -- records/fillers/get_filler.py: special forms are not types *)
Definition plain_hint (p : plain) : @hint obj ty W :=
  match p with PType y => hint_of P T y | _ => HOther end.

(** RecordField.from_type_hint -- records/field.py:100-126, branch by branch *)
Fixpoint of_declared (frozen : bool) (owner : ty) (name : string) (dflt : default) (th : declared)
  : outcome (option field) :=
  match th with
  | Plain PFinal => Raise (mkexc TypeError "raw Final cannot be use inside records")
  | Plain (PClassVarOf _) | Annotated (PClassVarOf _) _ _ => Ok None
  | Plain (PFinalOf d) =>
      if negb frozen then Raise (mkexc TypeError "cannot declare Final field in non-frozen Record") else
      of_declared frozen owner name dflt d
  | Annotated (PFinalOf d) a args =>
      if negb frozen then Raise (mkexc TypeError "cannot declare Final field in non-frozen Record") else
      do r <- of_declared frozen owner name dflt d;
      match r with
      | Some f => Ok (Some (Field (f_name f) (f_filler f) (f_default f) (f_owner f) (add_tags (a :: args) (f_tags f))))
      | None => Raise (mkexc AttributeError "_apply")
      end
  | _ =>
      let '(p, args) := split th in
      do fl <- get_filler P (full_hint (plain_hint p) args);
      Ok (Some (Field name fl dflt owner (add_tags args [])))
  end.

(** what Classes.v calls them *)
Fixpoint ann_of (d : declared) : ann :=
  match d with
  | Plain p => ann_of_plain p []
  | Annotated p a args => ann_of_plain p (a :: args)
  end
with ann_of_plain (p : plain) (args : list arg) : ann :=
  match p with
  | PClassVarOf _ => AClassVar
  | PFinal => match args with [] => ARawFinal | _ => AHint HOther args end
  | PFinalOf d => AFinal (ann_of d) args
  | PClassVar => AHint HOther args
  | PType y => AHint (hint_of P T y) args
  end.

End Declared.
