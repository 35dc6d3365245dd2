(** Spec_Bodies.v -- what a class statement says about defaults and parsers. *)
From Verif Require Import Base Py Filler Classes Spec_Classes Bodies.

Section Spec.
Context {obj ty W : Type} (P : Py obj ty W).
Notation entry := (@entry obj W).
Notation namespace := (@namespace obj W).
Notation body := (@body obj ty W).

(** the first class in the list that has something under the name has [e] there *)
Inductive nearest (k : string) (e : entry) : list namespace -> Prop :=
| nearest_here n r : dget k n = Some e -> nearest k e (n :: r)
| nearest_later n r : dget k n = None -> nearest k e r -> nearest k e (n :: r).

(** what an entry means as a default *)
Definition as_default (e : entry) : @default obj W :=
  match n_factory e with Some g => DefFactory g | None => DefVal (n_obj e) end.

(** [k] is a field that the class statement declares *)
Definition declares (b : body) (k : string) : Prop := exists a, dget k (b_anns b) = Some a /\ is_field a = true.

(** on the class, [k] is a callable marked with @parser, and not a field *)
Definition parser_at (b : body) (k : string) (p : @parser obj W) : Prop :=
  ~ declares b k /\ exists e, nearest k e (b_body b :: b_mro b) /\ n_parser e = Some p.

(** record classes made by class statements with namespaces *)
Definition good_bases (b : body) : Prop := forall c, In (BRecord c) (b_bases b) -> made P c.

(** the class statement with Final[...] around the annotations of some names *)
Definition finally (s : string -> bool) (d : @decl obj ty W) : @decl obj ty W :=
  Decl (d_ty d) (d_frozen d) (d_ordered d) (d_unary d) (d_style d)
       (map (fun ka => (fst ka, if s (fst ka) then AFinal (snd ka) [] else snd ka)) (d_anns d)) (d_inherited_anns d)
       (d_static d) (d_bases d) (d_prebind d) (d_parsers d) (d_post_new d).

(** the annotation is Final[...] or Annotated[Final[...], ...] *)
Definition is_final (a : @ann obj ty W) : bool := match a with AFinal _ _ => true | _ => false end.

(** the class statement with other functions marked as parsers *)
Definition with_user_parsers (d : @decl obj ty W) (user : dict (obj -> M W obj)) : @decl obj ty W :=
  Decl (d_ty d) (d_frozen d) (d_ordered d) (d_unary d) (d_style d) (d_anns d) (d_inherited_anns d)
       (d_static d) (d_bases d) (d_prebind d) user (d_post_new d).

(** the three parsers of RecordBase are where they should be, and there are no other marked
    callables but the users' *)
Definition builtin (k : string) : option (@parser obj W) :=
  if String.eqb k "from_instance" then Some PFromInstance else
  if String.eqb k "from_json" then Some PFromJson else
  if String.eqb k "from_mapping" then Some PFromMapping else None.
Definition builtins_stand (b : body) : Prop :=
  (forall k p, builtin k = Some p -> parser_at b k p) /\
  (forall k p, parser_at b k p -> builtin k = None -> exists f, p = PUser f).

End Spec.
