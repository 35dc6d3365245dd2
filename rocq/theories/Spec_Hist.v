(** Spec_Hist.v -- what programs that use records can do, in any order and any number of
    times, and what it means that all user code keeps to a rule. *)
From Verif Require Import Base Py Select Filler Spec_Filler Classes Spec_Classes Runtime Record Spec_Record Spec_Inst.

(** ** Rules for effects

    A rule says what may happen between the start and the end of a computation: it relates
    the state before, the exception raised (if any) and the state after. *)
Section Rules.
Context {obj ty W : Type} (R : Rt obj ty W).
Notation P := (rt_py R).
Notation token := (@token obj ty W).
Notation decl := (@decl obj ty W).
Notation cls := (@cls obj ty W).
Variable rule : W -> option exc -> W -> Prop.

Definition obeys {A} (m : M W A) : Prop :=
  forall w, match m w with
            | (Ok _, w') => rule w None w'
            | (Raise e, w') => rule w (Some e) w'
            end.

(** the functions among the arguments of Annotated *)
Fixpoint coercer_obeys (c : @ctoken obj ty W) : Prop :=
  match c with
  | CGlobal g => forall o f, g o = Ok f -> forall x, obeys (f x)
  | CCompose cs => (fix all l := match l with [] => True | c :: r => coercer_obeys c /\ all r end) cs
  | _ => True
  end.
Definition token_obeys (t : token) : Prop :=
  match t with
  | TCoerce c => coercer_obeys c
  | TValid (VGlobal g) => forall o f, g o = Ok f -> forall x, obeys (f x)
  | _ => True
  end.

(** the functions in a class statement: those in its annotations and in its pre_bind, its
    default factories, parsers and post_new *)
Record statement_obeys (d : decl) : Prop := {
  so_anns : forall k a t, In (k, a) (d_anns d) -> In t (hint_tokens (declared_hint a)) -> token_obeys t;
  so_prebind : forall k key t, In (k, (key, t)) (d_prebind d) -> token_obeys t;
  so_factories : forall k g, d_static d k = DefFactory g -> obeys g;
  so_parsers : forall k p v, In (k, p) (d_parsers d) -> obeys (p v);
  so_post : forall x, obeys (d_post_new d x)
}.

(** a record class made by such a statement, and so are its bases *)
Inductive class_obeys : cls -> Prop :=
| class_obeys_made d c :
    make_class P d = Ok c -> dict_ok (d_anns d) -> statement_obeys d ->
    (forall b, In (BRecord b) (d_bases d) -> class_obeys b) -> class_obeys c.

(** everything the library calls that is not its own: the operations of the objects it
    meets, and of the modules json, copy and pickle *)
Record objects_obey : Prop := {
  oo_rebuild : forall rk v es, obeys (rebuild P rk v es);
  oo_rebuild_map : forall rk v es, obeys (rebuild_map P rk v es);
  oo_eq_int : forall v z, obeys (eq_int P v z);
  oo_subclass : forall v b, obeys (lift (issubclass P v b));
  oo_hash_error : forall v e, hash_error P v = Some e -> obeys (raise (A := unit) e);
  oo_eq : forall x y, obeys (v_eq R x y);
  oo_ne : forall x y, obeys (v_ne R x y);
  oo_cmp : forall o x y, obeys (v_cmp R o x y);
  oo_ext_cmp : forall o x y, obeys (ext_cmp R o x y);
  oo_hash : forall x, obeys (v_hash R x);
  oo_attr : forall x k, obeys (ext_attr R x k);
  oo_repr : forall x, obeys (v_repr R x);
  oo_truth : forall x, obeys (truth R x);
  oo_iter : forall m, obeys (m_iter R m);
  oo_item : forall m k, obeys (m_item R m k);
  oo_unpack : forall x, obeys (unpack R x);
  oo_as_dict : forall x, obeys (as_dict R x);
  oo_loads : forall x, obeys (json_loads R x);
  oo_dumps : forall d, obeys (json_dumps R d);
  oo_deep : forall l, obeys (deep_copy R l);
  oo_pickle : forall l, obeys (pickle_values R l)
}.

(** a program: all its record classes and all other code that the library calls *)
Definition program_obeys (ctx : ty -> option cls) : Prop :=
  objects_obey /\ forall t c, ctx t = Some c -> c_ty c = t /\ class_obeys c.

End Rules.

(** a rule about states only: [keeping K] holds whatever is raised *)
Definition keeping {W} (K : W -> W -> Prop) : W -> option exc -> W -> Prop := fun w _ w' => K w w'.

(** ** Histories *)
Section History.
Context {obj ty W : Type} (R : Rt obj ty W).
Notation P := (rt_py R).
Notation cls := (@cls obj ty W).
Context (ctx : ty -> option cls).

(** one step of a program; [n] is how deep constructors may still recurse *)
Inductive action :=
| ASet (x : obj) (k : string) (v : obj)
| AHash (x : obj)
| AEq (x y : obj)
| ACompare (o : cmp) (x y : obj)
| AToDict (x : obj) (a : export_args) (s : sel obj)
| AToJson (x : obj) (a : export_args) (s : sel obj)
| ARepr (x : obj) (a : export_args)
| ACopy (n : nat) (x : obj)
| ADeepcopy (n : nat) (x : obj)
| ACall (n : nat) (c : cls) (pos : option obj) (kw : dict obj)
| AFromMapping (n : nat) (c : cls) (s : sel obj) (ms : list obj) (kw : dict obj)
| AFromInstance (n : nat) (c : cls) (s : sel obj) (v : obj) (ms : list obj) (kw : dict obj)
| AFromJson (n : nat) (c : cls) (s : sel obj) (v : obj)
| AParse (n : nat) (c : cls) (v : obj)
| AFromPickled (n : nat) (c : cls) (v : obj)
| AOther (m : M W unit).

(** the state after it; exceptions are caught by the program *)
Definition after (a : action) (w : W) : W :=
  match a with
  | ASet x k v => snd (setattr R ctx x k v w)
  | AHash x => snd (record_hash R ctx x w)
  | AEq x y => snd (record_eq R ctx x y w)
  | ACompare o x y => snd (compare R ctx o x y w)
  | AToDict x a s => snd (to_dict R ctx x a s w)
  | AToJson x a s => snd (to_json R ctx x a s w)
  | ARepr x a => snd (repr R ctx x a w)
  | ACopy n x => snd (copy R ctx n x w)
  | ADeepcopy n x => snd (deepcopy R ctx n x w)
  | ACall n c pos kw => snd (construct R n c pos kw w)
  | AFromMapping n c s ms kw => snd (from_mapping R n c s ms kw w)
  | AFromInstance n c s v ms kw => snd (from_instance R n c s v ms kw w)
  | AFromJson n c s v => snd (from_json R n c s v w)
  | AParse n c v => snd (parse R n c v w)
  | AFromPickled n c v => snd (from_pickled R n c v w)
  | AOther m => snd (m w)
  end.
Fixpoint after_all (l : list action) (w : W) : W :=
  match l with [] => w | a :: r => after_all r (after a w) end.

(** the classes in an action are classes of the program, its other code keeps [K] *)
Definition allowed (K : W -> W -> Prop) (a : action) : Prop :=
  match a with
  | ACall _ c _ _ | AFromMapping _ c _ _ _ | AFromInstance _ c _ _ _ _ | AFromJson _ c _ _ | AParse _ c _ | AFromPickled _ c _ =>
      ctx (c_ty c) = Some c
  | AOther m => obeys (keeping K) m
  | _ => True
  end.

(** the action is not an assignment to [p._hash] *)
Definition no_hash_assignment (a : action) : Prop :=
  match a with ASet _ k _ => k <> "_hash"%string | _ => True end.

(** ** What is kept *)

(** every instance of a frozen class is still there, with the same attributes *)
Definition frozen_kept (w w' : W) : Prop :=
  forall x i c, lookup R w x = Some i -> ctx (i_cls i) = Some c -> c_frozen c = true ->
  exists j, lookup R w' x = Some j /\ i_cls j = i_cls i /\ i_dict j = i_dict i.

(** no instance has changed, except that an instance of a frozen class that had no hash may
    have one now *)
Definition only_hashed (w w' : W) : Prop :=
  forall x i, lookup R w x = Some i ->
  lookup R w' x = Some i \/
  exists c z, ctx (i_cls i) = Some c /\ c_frozen c = true /\ i_hash i = SNone /\
    lookup R w' x = Some (Inst (i_cls i) (i_dict i) (SHash z)).

(** every instance is still there, and has the hash that it had, if it had one *)
Definition hashes_kept (w w' : W) : Prop :=
  forall x i, lookup R w x = Some i ->
  exists j, lookup R w' x = Some j /\ i_cls j = i_cls i /\ forall z, i_hash i = SHash z -> i_hash j = SHash z.

(** ** Guarantees of fields *)

(** [Q t k v] says of a value [v] that it is right for the field [k] of the record class [t].
    In state [w] all fields of all record instances have right values. *)
Definition all_right (Q : ty -> string -> obj -> Prop) (w : W) : Prop :=
  forall x i c k v, lookup R w x = Some i -> ctx (i_cls i) = Some c -> In k (keys (c_fields c)) ->
  dget k (i_dict i) = Some v -> Q (i_cls i) k v.
Definition stays_right (Q : ty -> string -> obj -> Prop) (w w' : W) : Prop := all_right Q w -> all_right Q w'.

(** the fillers of the fields of [c] only return right values, and the defaults are right *)
Definition guarantees (Q : ty -> string -> obj -> Prop) (c : cls) : Prop :=
  forall k f, dget k (c_fields c) = Some f ->
    (forall v w y w', call P (f_filler f) v w = (Ok y, w') -> Q (c_ty c) k y) /\
    (forall d, f_default f = DefVal d -> Q (c_ty c) k d) /\
    (forall g w y w', f_default f = DefFactory g -> g w = (Ok y, w') -> Q (c_ty c) k y).

(** every assignment is, at the time it is made, of a right value or to a record of a frozen
    class *)
Fixpoint assigns_right (Q : ty -> string -> obj -> Prop) (l : list action) (w : W) : Prop :=
  match l with
  | [] => True
  | a :: r =>
      match a with
      | ASet x k v => forall i c, lookup R w x = Some i -> ctx (i_cls i) = Some c -> c_frozen c = true \/ Q (i_cls i) k v
      | _ => True
      end /\ assigns_right Q r (after a w)
  end.

(** [v] is of the type that the field [k] of the class [t] was declared with *)
Definition of_declared_type (t : ty) (k : string) (v : obj) : Prop :=
  forall c f s h ops, ctx t = Some c -> dget k (c_fields c) = Some f -> make_filler P s h ops = Ok (f_filler f) ->
  Forall asserting (hint_tokens h ++ map snd ops) -> conforms P s (sub_ops ops) (own_ops ops) [] h v.

End History.

(** ** Interrupts *)

(** [pending w] is the exception that is not an Exception (KeyboardInterrupt, ...) that was
    raised and has not left the program yet.  Started with none pending, a computation
    leaves one pending exactly if it raises it. *)
Definition passes_interrupts {W} (pending : W -> option exc) : W -> option exc -> W -> Prop :=
  fun w raised w' => pending w = None ->
  pending w' = match raised with
               | Some e => if is_Exception e then None else Some e
               | None => None
               end.
