(** Spec_Names.v -- what an annotation means that is written as text: its names mean what
    they are bound to, text in it means what the text means, and so on to the end. *)
From Verif Require Import Base Py Filler Classes Names.

Section Spec.
Context {V op : Type} (L : Lang V op).
Notation value := (value V).
Notation expr := (expr op).

(** ** The meaning of expressions if names are bound by [env] *)
Section Meaning.
Context (env : string -> option value).

Inductive means : expr -> value -> Prop :=
| means_name n v : env n = Some v -> means (XName n) v
| means_text s : means (XText s) (VText s)
| means_op o args vs v : means_all args vs -> operate L o vs = Ok v -> means (XOp o args) v
with means_all : list expr -> list value -> Prop :=
| means_nil : means_all [] []
| means_cons e v es vs : means e v -> means_all es vs -> means_all (e :: es) (v :: vs).

(** no text is left to be read in the value *)
Fixpoint settled (v : value) : Prop :=
  match v with
  | VObj _ | VText _ => True
  | VRef _ _ => False
  | VAlias _ args => fold_right (fun a p => settled a /\ p) True args
  end.

(** [resolves v w]: reading all text in [v] gives [w].  Text must mean a type, or other text
    that does. *)
Inductive resolves : value -> value -> Prop :=
| res_settled v : settled v -> resolves v v
| res_ref r s e v w : compile L s = Ok e -> means e v -> is_type L v = true -> (forall s', v <> VText s') ->
    resolves v w -> resolves (VRef r s) w
| res_ref_text r s e s' w : compile L s = Ok e -> means e (VText s') -> resolves (VRef None s') w ->
    resolves (VRef r s) w
| res_alias a args args' w : ~ settled (VAlias a args) -> resolves_all args args' ->
    copy_with L a args' = Ok w -> resolves (VAlias a args) w
with resolves_all : list value -> list value -> Prop :=
| res_nil : resolves_all [] []
| res_cons v w vs ws : resolves v w -> resolves_all vs ws -> resolves_all (v :: vs) (w :: ws).

(** the meaning of an annotation: a string is text *)
Definition annotation_means (v w : value) : Prop :=
  match v with VText s => resolves (VRef None s) w | _ => resolves v w end.
End Meaning.

(** ** Which names are bound while the class [c] is created, in a class with the globals [g]:
    the class itself by its name, the names of the module, the built-in names *)
Definition bound (c : pyclass V) (g : scope V) (n : string) : option value :=
  if (String.eqb n (k_name c) || String.eqb n (k_qualname c))%bool then Some (k_obj c)
  else match dget n g with Some v => Some v | None => dget n (builtins L) end.

(** which names are bound in the body of a class statement: those of the functions around it,
    of the module, built-in ones *)
Definition visible (locals g : scope V) (n : string) : option value :=
  match dget n locals with
  | Some v => Some v
  | None => match dget n g with Some v => Some v | None => dget n (builtins L) end
  end.

(** the names in an expression, outside of text *)
Fixpoint names_in (e : expr) : list string :=
  match e with
  | XName n => [n]
  | XText _ => []
  | XOp _ args => flat_map names_in args
  end.

(** every annotation of the class means what [ws] says, in order *)
Definition all_mean (c b : pyclass V) (g : scope V) (ws : dict value) : Prop :=
  Forall2 (fun kv kw => fst kv = fst kw /\ annotation_means (bound c g) (snd kv) (snd kw)) (k_anns b) ws.

(** the names that the classes of an __mro__ annotate, base classes first *)
Definition annotated (rest : list (pyclass V)) : list string :=
  flat_map (fun b => keys (k_anns b)) (rev rest).
End Spec.
