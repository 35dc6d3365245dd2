(** Spec_Classes.v -- what a class statement declares. *)
From Verif Require Import Base Py Filler Spec_Filler Classes.

Section Spec.
Context {obj ty W : Type} (P : Py obj ty W).
Notation token := (@token obj ty W).
Notation hint := (@hint obj ty W).
Notation filler := (@filler obj ty W).
Notation ann := (@ann obj ty W).
Notation decl := (@decl obj ty W).
Notation cls := (@cls obj ty W).

(** is it a field, or a ClassVar? *)
Fixpoint is_field (a : ann) : bool :=
  match a with
  | AClassVar => false
  | AFinal a' _ => is_field a'
  | _ => true
  end.

(** the hint and the tokens a field is declared with: Final is looked through, and so are
    the arguments of an Annotated around it *)
Fixpoint declared_hint (a : ann) : hint :=
  match a with
  | AHint h args => full_hint h args
  | AFinal a' _ => declared_hint a'
  | ARawFinal | AClassVar => HOther
  end.

(** the tags a field is declared with, also those around Final *)
Definition arg_tags (args : list (@arg obj ty W)) : list nat :=
  flat_map (fun a => match a with ATag n => [n] | ATok _ => [] end) args.
Fixpoint declared_tags (a : ann) : list nat :=
  match a with
  | AHint _ args => arg_tags args
  | AFinal a' args => declared_tags a' ++ arg_tags args
  | ARawFinal | AClassVar => []
  end.

(** the names of a class's own fields, in the order the class has them: names that a base
    annotates too come first, in the order in which they first occur in the bases; the others
    in declaration order *)
Definition own_field_names (d : decl) : list string :=
  let is_own k := match dget k (d_anns d) with Some a => is_field a | None => false end in
  filter is_own (rev (nodup string_dec (rev (d_inherited_anns d)))) ++
  filter (fun k => is_own k && negb (smem k (d_inherited_anns d))) (keys (d_anns d)).

(** the names of the fields of the bases, in base order *)
Definition inherited_names (d : decl) : list string :=
  flat_map (fun b => match b with BRecord c => keys (c_fields c) | BOther => [] end) (d_bases d).

(** what pre_bind applies to one field *)
Definition ops_for (k : string) (ops : list (string * (option nat * token))) : list (option nat * token) :=
  map snd (filter (fun o => String.eqb k (fst o)) ops).

(** the record classes there are: made by a class statement whose record bases are record
    classes, and whose own annotations are a dict *)
Inductive made : cls -> Prop :=
| made_class d c :
    make_class P d = Ok c -> dict_ok (d_anns d) ->
    (forall b, In (BRecord b) (d_bases d) -> made b) ->
    made c.

End Spec.
