(** Spec_Inst.v -- what it means to export, compare, order and copy record instances. *)
From Verif Require Import Base Py Select Filler Classes Runtime Record Spec_Record.

Section Spec.
Context {obj ty W : Type} (R : Rt obj ty W).
Notation P := (rt_py R).
Notation field := (@field obj ty W).
Notation cls := (@cls obj ty W).
Notation inst := (inst obj ty).
Context (ctx : ty -> option cls).

(** [x] is, in state [w], the instance [i] of the record class [c], and has all its fields *)
Definition instance_of (c : cls) (w : W) (x : obj) (i : inst) : Prop :=
  ctx (c_ty c) = Some c /\ lookup R w x = Some i /\ i_cls i = c_ty c /\ type_of P x = c_ty c /\
  forall k, In k (keys (c_fields c)) -> exists v, dget k (i_dict i) = Some v.

(** post_new has nothing against instances of [c] that are [like] that: what comes of it is
    the instance itself, and nothing else happens.  A class without a post_new of its own
    accepts all instances. *)
Definition accepts (c : cls) (like : inst -> Prop) : Prop :=
  forall self w j, instance_of c w self j -> like j -> post_new_result R c self w = (Ok self, w).

(** ** Python's contracts for ==, hash and <, as far as the field values keep them *)

(** == and != of the values in [D] just give an answer *)
Definition has_eq (D : obj -> Prop) (eqb : obj -> obj -> bool) : Prop :=
  forall x y w, D x -> D y -> v_eq R x y w = (Ok (eqb x y), w) /\ v_ne R x y w = (Ok (negb (eqb x y)), w).

Definition equivalence (D : obj -> Prop) (eqb : obj -> obj -> bool) : Prop :=
  (forall a, D a -> eqb a a = true) /\
  (forall a b, D a -> D b -> eqb a b = true -> eqb b a = true) /\
  (forall a b c, D a -> D b -> D c -> eqb a b = true -> eqb b c = true -> eqb a c = true).

(** [D] has the defaults of a class, and the field values of an instance *)
Definition defaults_in (D : obj -> Prop) (c : cls) : Prop :=
  forall k f d, dget k (c_fields c) = Some f -> f_default f = DefVal d -> D d.
Definition values_in (D : obj -> Prop) (c : cls) (i : inst) : Prop :=
  forall k v, In k (keys (c_fields c)) -> dget k (i_dict i) = Some v -> D v.

(** all field values of [i] are hashable, with hashes [hf] *)
Definition hashable (hf : obj -> Z) (c : cls) (i : inst) : Prop :=
  forall k v, In k (keys (c_fields c)) -> dget k (i_dict i) = Some v -> forall w, v_hash R v w = (Ok (hf v), w).

(** equal values have equal hashes *)
Definition hash_contract (D : obj -> Prop) (eqb : obj -> obj -> bool) (hf : obj -> Z) : Prop :=
  forall a b, D a -> D b -> eqb a b = true -> hf a = hf b.

(** all fields are equal *)
Definition fieldwise (eqb : obj -> obj -> bool) (c : cls) (i j : inst) : Prop :=
  forall k a b, In k (keys (c_fields c)) -> dget k (i_dict i) = Some a -> dget k (i_dict j) = Some b -> eqb a b = true.

(** no instance of [w] has lost or changed an attribute in [w'] *)
Definition fields_kept (w w' : W) : Prop :=
  forall x i, lookup R w x = Some i ->
  exists j, lookup R w' x = Some j /\ i_cls j = i_cls i /\ i_dict j = i_dict i.

(** every instance of [w] is in [w'] as it was *)
Definition all_kept (w w' : W) : Prop :=
  forall x i, lookup R w x = Some i -> lookup R w' x = Some i.

(** ** Exports *)

(** [v], the value of a field, is to be exported: it is whitelisted, or it has no
    blacklisted tag, and defaults are exported or it is not equal to its default *)
Definition to_export (eqb : obj -> obj -> bool) (a : export_args) (black : list nat) (k : string) (f : field) (v : obj) : Prop :=
  In k (e_white a) \/
  (forall t, In t (f_tags f) -> ~ In t black) /\
  (e_defaults a = true \/ forall d, f_default f = DefVal d -> eqb d v = false).

(** a list of pairs is sorted by key *)
Inductive sorted_by {A} (le : string -> string -> bool) : dict A -> Prop :=
| sorted_nil : sorted_by le []
| sorted_cons k v r : (forall k' v', In (k', v') r -> le k k' = true) -> sorted_by le r -> sorted_by le ((k, v) :: r).

(** the order that a sort argument stands for *)
Definition order_of (s : sorting) : option (string -> string -> bool) :=
  match s with
  | SortNone => None
  | SortAsc => Some String.leb
  | SortDesc => Some (fun a b => String.leb b a)
  | SortKey le => Some le
  end.
Definition total_preorder (le : string -> string -> bool) : Prop :=
  (forall a b, le a b = true \/ le b a = true) /\
  (forall a b c, le a b = true -> le b c = true -> le a c = true).

(** ** Copies *)

(** the fillers return the values of [i] unchanged *)
Definition stored_fixed (c : cls) (i : inst) : Prop :=
  forall k f v, dget k (c_fields c) = Some f -> dget k (i_dict i) = Some v -> forall w, call P (f_filler f) v w = (Ok v, w).

(** no field of the class has the name of one of Python's own parameters *)
Definition fields_callable (c : cls) : Prop := forall k, In k (keys (c_fields c)) -> ~ reserved k.

(** [j] has, for every field, the very object [i] has, or, if that is equal to the default
    of the field, the default *)
Definition rebuilt (eqb : obj -> obj -> bool) (c : cls) (i j : inst) : Prop :=
  forall k f v, dget k (c_fields c) = Some f -> dget k (i_dict i) = Some v ->
  dget k (i_dict j) = Some v \/
  exists d, f_default f = DefVal d /\ eqb d v = true /\ dget k (i_dict j) = Some d.

(** [y] is in [w'] a new instance of [c], with its own attributes only *)
Definition fresh_instance (c : cls) (w w' : W) (y : obj) (j : inst) : Prop :=
  instance_of c w' y j /\ lookup R w y = None /\ (forall k, In k (keys (i_dict j)) -> In k (keys (c_fields c))) /\
  i_hash j = (if c_frozen c then SNone else SUnset).

(** ** Hash caches *)

(** the hash slot of [i] is empty, or holds what hash() computes from its fields: the hash
    of the tuple of its exported values *)
Definition cache_ok (eqb : obj -> obj -> bool) (hf : obj -> Z) (c : cls) (i : inst) : Prop :=
  i_hash i = SNone \/
  exists d, NoDup (keys d) /\ (exists l, keys d = filter l (keys (c_fields c))) /\
    (forall k v, In (k, v) d <-> exists f, dget k (c_fields c) = Some f /\ dget k (i_dict i) = Some v /\ to_export eqb no_args [] k f v) /\
    i_hash i = SHash (tuple_hash R (map hf (dvalues d))).

(** ** Orders *)

(** the values of field [k] are totally ordered, by ltb up to eqb, and < and == have no
    effect on them *)
Definition ordered_domain (eqb ltb : obj -> obj -> bool) (D : obj -> Prop) : Prop :=
  (forall a b w, D a -> D b ->
     v_eq R a b w = (Ok (eqb a b), w) /\
     v_cmp R CLt a b w = (Ok (ltb a b), w) /\ v_cmp R CLe a b w = (Ok (ltb a b || eqb a b), w) /\
     v_cmp R CGt a b w = (Ok (ltb b a), w) /\ v_cmp R CGe a b w = (Ok (ltb b a || eqb a b), w)) /\
  (forall a, D a -> eqb a a = true) /\
  (forall a b, D a -> D b -> eqb a b = true -> eqb b a = true) /\
  (forall a b c, D a -> D b -> D c -> eqb a b = true -> eqb b c = true -> eqb a c = true) /\
  (forall a b c, D a -> D b -> D c -> ltb a b = true -> ltb b c = true -> ltb a c = true) /\
  (forall a b, D a -> D b -> ltb a b = true \/ eqb a b = true \/ ltb b a = true) /\
  (forall a b, D a -> D b -> ltb a b = true -> eqb a b = false /\ ltb b a = false).

(** the fields that ordering looks at, in field order *)
Definition ordering_fields (c : cls) : list string :=
  keys (filter (fun kf => negb (existsb (Nat.eqb exclude_tag) (f_tags (snd kf)))) (c_fields c)).

(** lexicographic order: some field is smaller, and all before it are equal *)
Definition lex_less (eqb ltb : obj -> obj -> bool) (ks : list string) (i j : inst) : Prop :=
  exists before k after a b, ks = before ++ k :: after /\
    (forall k' a' b', In k' before -> dget k' (i_dict i) = Some a' -> dget k' (i_dict j) = Some b' -> eqb a' b' = true) /\
    dget k (i_dict i) = Some a /\ dget k (i_dict j) = Some b /\ ltb a b = true.
Definition lex_equal (eqb : obj -> obj -> bool) (ks : list string) (i j : inst) : Prop :=
  forall k a b, In k ks -> dget k (i_dict i) = Some a -> dget k (i_dict j) = Some b -> eqb a b = true.

End Spec.
