(** Spec_Record.v -- what it means to construct a record. *)
From Verif Require Import Base Py Select Filler Classes Runtime Record.

Section Spec.
Context {obj ty W : Type} (R : Rt obj ty W).
Notation P := (rt_py R).
Notation field := (@field obj ty W).
Notation cls := (@cls obj ty W).

(** Every passed value goes through the filler of its field, in keyword order. *)
Inductive filled (c : cls) : dict obj -> W -> dict obj -> W -> Prop :=
| filled_nil w : filled c [] w [] w
| filled_cons k v r f y ys w w1 w2 :
    dget k (c_fields c) = Some f -> call P (f_filler f) v w = (Ok y, w1) ->
    filled c r w1 ys w2 -> filled c ((k, v) :: r) w ((k, y) :: ys) w2.

(** The default of a field, for this construction: the declared object itself, or what its
    factory returns now. *)
Inductive default_of (f : field) : W -> obj -> W -> Prop :=
| default_value v w : f_default f = DefVal v -> default_of f w v w
| default_made g v w w1 : f_default f = DefFactory g -> g w = (Ok v, w1) -> default_of f w v w1.

(** the given fields get their defaults, one after the other *)
Inductive defaulted (c : cls) : list string -> W -> dict obj -> W -> Prop :=
| defaulted_nil w : defaulted c [] w [] w
| defaulted_cons k r f v vs w w1 w2 :
    dget k (c_fields c) = Some f -> default_of f w v w1 -> defaulted c r w1 vs w2 ->
    defaulted c (k :: r) w ((k, v) :: vs) w2.

(** the fields of [c] that are not in [kw] *)
Definition omitted (c : cls) (kw : dict obj) : list string :=
  filter (fun k => negb (dmem k kw)) (keys (c_fields c)).

(** From [w] the passed values are filled and then the omitted fields defaulted, in some
    order; [self] is the instance allocated next, and [w'] the state after that. *)
Definition initialized (c : cls) (kw : dict obj) (w : W) (self : obj) (w' : W) : Prop :=
  exists vs w1 order ds w2,
    filled c kw w vs w1 /\ Permutation (omitted c kw) order /\ defaulted c order w1 ds w2 /\
    self = ref R (c_ty c) (List.length (heap R w2)) /\
    w' = set_heap R (heap R w2 ++ [Inst (c_ty c) (vs ++ ds) (if c_frozen c then SNone else SUnset)]) w2.

(** what post_new makes of a new instance: what it returns, if that is true, or the
    instance *)
Definition post_new_result (c : cls) (self : obj) : M W obj :=
  let* r := c_post_new c self in
  let* t := truth R r in
  ret (if t then r else self).

(** the class has no post_new of its own *)
Definition no_post_new (c : cls) : Prop := forall x w, c_post_new c x w = (Ok (o_none P), w).

(** post_new may raise, or do anything else, but it does not replace the new record, nor
    change its attributes *)
Definition only_validates (c : cls) : Prop := forall self w x w', post_new_result c self w = (Ok x, w') ->
  x = self /\ forall i, lookup R w self = Some i ->
  exists j, lookup R w' self = Some j /\ i_cls j = i_cls i /\ i_dict j = i_dict i.

(** the names of Python's own parameters of __new__ and __init__ *)
Definition reserved (k : string) : Prop := k = "cls"%string \/ k = "arg"%string \/ k = "self"%string.
Definition no_reserved (kw : dict obj) : Prop := forall k, In k (keys kw) -> ~ reserved k.

(** all names in [kw] are fields, and all required fields are in [kw] *)
Definition known (c : cls) (kw : dict obj) : Prop := forall k, In k (keys kw) -> In k (keys (c_fields c)).
Definition complete (c : cls) (kw : dict obj) : Prop := forall k, In k (required_keys (c_fields c)) -> In k (keys kw).

(** what the library raises for an error [e] while filling field [k] *)
Definition names_field (k : string) (e e' : exc) : Prop :=
  exc_cause e' = Some e /\
  exc_cls e' = match exc_ctor (exc_cls e) with CtorTypeError => ValueError | _ => exc_cls e end /\
  exists a b, exc_msg e' = (a ++ k ++ b)%string.

(** Every parser is called once on [v], one after the other, and gives an outcome; none of
    them is interrupted. *)
Inductive parser_runs (run : @parser obj W -> M W obj) : list (@parser obj W) -> W -> list (outcome obj) -> W -> Prop :=
| runs_nil w : parser_runs run [] w [] w
| runs_cons p r w o w1 os w2 :
    run p w = (o, w1) -> (forall e, o = Raise e -> is_Exception e = true) ->
    parser_runs run r w1 os w2 -> parser_runs run (p :: r) w (o :: os) w2.

(** the results among outcomes *)
Definition results (os : list (outcome obj)) : list obj :=
  flat_map (fun o => match o with Ok x => [x] | Raise _ => [] end) os.

(** the outcome of parsing: the only result there is *)
Definition parse_verdict (os : list (outcome obj)) (o : outcome obj) : Prop :=
  match results os with
  | [] => exists m, o = Raise (mkexc ParseFailure m)
  | [x] => o = Ok x
  | _ => exists m, o = Raise (mkexc TypeError m)
  end.

(** no default factory of the class ever raises *)
Definition safe_defaults (c : cls) : Prop :=
  forall k f g, dget k (c_fields c) = Some f -> f_default f = DefFactory g -> forall w, exists v w', g w = (Ok v, w').

(** the same class with another default for one field *)
Definition with_default (c : cls) (k : string) (d : @default obj W) : cls :=
  Cls (c_ty c)
      (map (fun kf => if String.eqb k (fst kf)
                      then (fst kf, Field (f_name (snd kf)) (f_filler (snd kf)) d (f_owner (snd kf)) (f_tags (snd kf)))
                      else kf) (c_fields c))
      (c_field_dict c) (c_frozen c) (c_ordered c) (c_unary c) (c_style c) (c_parsers c) (c_post_new c).

(** the same class with its parsers in another order *)
Definition with_parsers (c : cls) (ps : list (@parser obj W)) : cls :=
  Cls (c_ty c) (c_fields c) (c_field_dict c) (c_frozen c) (c_ordered c) (c_unary c) (c_style c) ps (c_post_new c).

(** [m] is a mapping with the items [d] *)
Definition is_mapping (m : obj) (d : dict obj) : Prop :=
  dict_ok d /\
  (forall w, m_iter R m w = (Ok (keys d), w)) /\
  (forall k w, m_item R m k w = (match dget k d with Some v => Ok v | None => Raise (mkexc KeyError k) end, w)).

End Spec.
