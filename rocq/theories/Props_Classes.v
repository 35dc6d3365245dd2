(** Props_Classes.v -- property theorems: record classes (records/field.py, RecordBase.__init_subclass__)
    Each theorem is closed by the lemma of the same statement in Classes_main.v; the examples
    show that concrete, non-trivial cases meet the hypotheses. *)

From Verif Require Import Base Py Filler Spec_Filler Classes Spec_Classes Demo.
From Verif Require Dict_proofs Filler_proofs Filler_sound Filler_shape Filler_seal Filler_decl Classes_proofs.
Open Scope string_scope.
Open Scope list_scope.

From Verif Require Import Classes_main.

(** C59: the fields of a class are those of its record bases in base order, then its own. *)
Theorem c59_names : forall {obj ty W} (P : Py obj ty W) d c,
  make_class P d = Ok c -> dict_ok (d_anns d) ->
  keys (c_fields c) = inherited_names d ++ own_field_names d.
Proof. exact (@c59_names_proof). Qed.
Print Assumptions c59_names.

(** ... in declaration order, if no base annotates any of its names *)
Theorem c59_declaration_order : forall {obj ty W} (d : @decl obj ty W),
  (forall k, In k (keys (d_anns d)) -> ~ In k (d_inherited_anns d)) -> dict_ok (d_anns d) ->
  own_field_names d = keys (filter (fun ka => is_field (snd ka)) (d_anns d)).
Proof. exact (@c59_declaration_order_proof). Qed.
Print Assumptions c59_declaration_order.

(** ... without duplicates, and there is at least one *)
Theorem c59_distinct : forall {obj ty W} (P : Py obj ty W) c,
  made P c -> NoDup (keys (c_fields c)) /\ c_fields c <> [].
Proof. exact (@c59_distinct_proof). Qed.
Print Assumptions c59_distinct.

(** a name that occurs twice is a ValueError *)
Theorem c59_duplicate : forall {obj ty W} (P : Py obj ty W) d,
  dict_ok (d_anns d) ->
  (forall k a, dget k (d_anns d) = Some a -> exists r, from_type_hint P (d_frozen d) (d_ty d) k (d_static d k) a = Ok r) ->
  ~ NoDup (inherited_names d ++ own_field_names d) ->
  exists m, make_class P d = Raise (mkexc ValueError m).
Proof. exact (@c59_duplicate_proof). Qed.
Print Assumptions c59_duplicate.

(** a class without fields is a ValueError *)
Theorem c59_empty : forall {obj ty W} (P : Py obj ty W) d,
  dict_ok (d_anns d) ->
  (forall k a, dget k (d_anns d) = Some a -> exists r, from_type_hint P (d_frozen d) (d_ty d) k (d_static d k) a = Ok r) ->
  inherited_names d ++ own_field_names d = [] ->
  exists m, make_class P d = Raise (mkexc ValueError m).
Proof. exact (@c59_empty_proof). Qed.
Print Assumptions c59_empty.

(** the required and the optional fields partition the fields; the required ones are
    those without a default *)
Theorem c59_partition : forall {obj ty W} (P : Py obj ty W) c,
  made P c ->
  Permutation (required_keys (c_fields c) ++ optional_keys (c_fields c)) (keys (c_fields c)) /\
  (forall k f, dget k (c_fields c) = Some f -> (In k (required_keys (c_fields c)) <-> f_default f = NoDefault)) /\
  (forall k f, dget k (c_fields c) = Some f -> (In k (optional_keys (c_fields c)) <-> f_default f <> NoDefault)).
Proof. exact (@c59_partition_proof). Qed.
Print Assumptions c59_partition.

(** the fields themselves: an inherited field is the one its base has, an own field has the
    declared default and tags, and the filler of the declared annotation with what pre_bind
    applied to it *)
Theorem c59_fields : forall {obj ty W} (P : Py obj ty W) d c,
  make_class P d = Ok c -> dict_ok (d_anns d) ->
  (forall b, In (BRecord b) (d_bases d) -> made P b) ->
  (forall b k f, In (BRecord b) (d_bases d) -> dget k (c_fields b) = Some f -> dget k (c_fields c) = Some f) /\
  (forall k a, dget k (d_anns d) = Some a -> is_field a = true -> exists f,
     dget k (c_fields c) = Some f /\ f_name f = k /\ f_owner f = d_ty d /\ f_default f = d_static d k /\
     (forall n, In n (f_tags f) <-> In n (declared_tags a)) /\
     make_filler P (d_style d) (declared_hint a) (ops_for k (d_prebind d)) = Ok (f_filler f)).
Proof. exact (@c59_fields_proof). Qed.
Print Assumptions c59_fields.

Definition cdecl (n : nat) (style : style) (anns : dict (@ann dobj dty demo_state)) (bases : list (@base dobj dty demo_state))
    (ops : list (string * (option nat * @token dobj dty demo_state))) : @decl dobj dty demo_state :=
  Decl (TRec n) false false None style anns (flat_map (fun b => match b with BRecord c => keys (c_fields c) | BOther => [] end) bases)
       (fun k => if String.eqb k "y" then DefVal (DInt 0) else NoDefault) bases ops [] (fun _ => ret DNone).

(** class A(RecordBase): x: int; y: int = 0
    class B(RecordBase): z: Annotated[List[int], Tag(7)]; v: ClassVar[int]
    class C(A, B): w: str *)
Definition made_of (d : @decl dobj dty demo_state) : @cls dobj dty demo_state :=
  match make_class demo0 d with Ok c => c | Raise _ => Cls TNone [] true false false false SCheck [] (fun _ => ret DNone) end.
Definition declA := cdecl 0 SCheck [("x", AHint (HTy TInt) []); ("y", AHint (HTy TInt) [])] [BOther] [].
Definition declB := cdecl 1 SCheck [("z", AHint (HIter RkPlain TList (HTy TInt)) [ATag 7]); ("v", AClassVar)] [BOther] [].
Definition declC := cdecl 2 SCheck [("w", AHint (HTy TStr) [])] [BRecord (made_of declA); BRecord (made_of declB)] [].
Example c59_two_bases :
  make_class demo0 declC = Ok (made_of declC) /\ keys (c_fields (made_of declC)) = ["x"; "y"; "z"; "w"] /\ made demo0 (made_of declC) /\
  required_keys (c_fields (made_of declC)) = ["x"; "z"; "w"] /\ optional_keys (c_fields (made_of declC)) = ["y"].
Proof.
  split; [reflexivity|]. split; [reflexivity|]. split; [|split; reflexivity].
  apply made_class with (d := declC); [reflexivity| |].
  - repeat constructor. intros [].
  - intros b [E|[E|[]]]; injection E as <-.
    + apply made_class with (d := declA); [reflexivity| |intros b [E|[]]; discriminate].
      repeat constructor; cbn; intuition discriminate.
    + apply made_class with (d := declB); [reflexivity| |intros b [E|[]]; discriminate].
      repeat constructor; cbn; intuition discriminate.
Qed.

(** C60 refuted: two record classes that share a field, in particular two that inherit it
    from a common record base, can never be combined. *)
Theorem c60_diamond_refuted : forall {obj ty W} (P : Py obj ty W) d b1 b2 l1 l2 l3 k c,
  d_bases d = l1 ++ BRecord b1 :: l2 ++ BRecord b2 :: l3 ->
  In k (keys (c_fields b1)) -> In k (keys (c_fields b2)) ->
  make_class P d <> Ok c.
Proof. exact (@c60_diamond_refuted_proof). Qed.
Print Assumptions c60_diamond_refuted.

(** class A: x; class B(A): y; class C(A): z; class D(B, C): w -- a ValueError *)
Example c60_diamond : exists a b c m,
  make_class demo0 (cdecl 0 SCheck [("x", AHint (HTy TInt) [])] [BOther] []) = Ok a /\
  make_class demo0 (cdecl 1 SCheck [("y", AHint (HTy TInt) [])] [BRecord a] []) = Ok b /\
  make_class demo0 (cdecl 2 SCheck [("z", AHint (HTy TInt) [])] [BRecord a] []) = Ok c /\
  make_class demo0 (cdecl 3 SCheck [("w", AHint (HTy TInt) [])] [BRecord b; BRecord c] []) = Raise (mkexc ValueError m).
Proof. eexists; eexists; eexists; eexists. repeat (split; [reflexivity|]). reflexivity. Qed.

(** ... and what does hold: bases without a common field can be combined, whenever the
    class statement is otherwise in order: its own annotations make fields whose fillers
    accept what pre_bind applies to them, and pre_bind applies nothing to other fields *)
Theorem c60_bases_partial : forall {obj ty W} (P : Py obj ty W) d,
  dict_ok (d_anns d) ->
  (forall b, In (BRecord b) (d_bases d) -> made P b) ->
  (forall b k f, In (BRecord b) (d_bases d) -> dget k (c_fields b) = Some f -> f_owner f <> d_ty d) ->
  (forall o, In o (d_prebind d) -> In (fst o) (own_field_names d)) ->
  (forall k a, dget k (d_anns d) = Some a ->
     (exists r, from_type_hint P (d_frozen d) (d_ty d) k (d_static d k) a = Ok r) /\
     (is_field a = true -> exists fl, make_filler P (d_style d) (declared_hint a) (ops_for k (d_prebind d)) = Ok fl)) ->
  NoDup (inherited_names d ++ own_field_names d) -> inherited_names d ++ own_field_names d <> [] ->
  exists c, make_class P d = Ok c.
Proof. exact (@c60_bases_partial_proof). Qed.
Print Assumptions c60_bases_partial.

(** C61: unary parsing is as asked for, and by default enabled unless exactly one field is
    required. *)
Theorem c61_unary_default : forall {obj ty W} (P : Py obj ty W) d c,
  make_class P d = Ok c -> dict_ok (d_anns d) ->
  (forall b, d_unary d = Some b -> c_unary c = b) /\
  (d_unary d = None -> (c_unary c = true <-> List.length (required_keys (c_fields c)) <> 1)).
Proof. exact (@c61_unary_default_proof). Qed.
Print Assumptions c61_unary_default.

(** with one required field the default is off, with none or two it is on *)
Example c61_cases : exists a b c,
  make_class demo0 (cdecl 0 SCheck [("x", AHint (HTy TInt) []); ("y", AHint (HTy TInt) [])] [BOther] []) = Ok a /\
  make_class demo0 (cdecl 1 SCheck [("y", AHint (HTy TInt) [])] [BOther] []) = Ok b /\
  make_class demo0 (cdecl 2 SCheck [("z", AHint (HTy TInt) [])] [BRecord a] []) = Ok c /\
  c_unary a = false /\ c_unary b = true /\ c_unary c = true.
Proof. eexists; eexists; eexists. repeat (split; [reflexivity|]). reflexivity. Qed.

(** C62: on a class that inherits no fields, filter_by_tag gives exactly the fields
    declared with the tag, in field order. *)
Theorem c62_filter_partial : forall {obj ty W} (P : Py obj ty W) d c t,
  make_class P d = Ok c -> dict_ok (d_anns d) -> inherited_names d = [] ->
  exists fs, filter_by_tag c t = Ok fs /\
    keys fs = filter (fun k => match dget k (d_anns d) with Some a => existsb (Nat.eqb t) (declared_tags a) | None => false end) (keys (c_fields c)) /\
    forall k f, In (k, f) fs -> In (k, f) (c_fields c).
Proof. exact (@c62_filter_partial_proof). Qed.
Print Assumptions c62_filter_partial.

(** C62 refuted: a class that inherits a field has no filter_by_tag *)
Theorem c62_inherited_refuted : forall {obj ty W} (P : Py obj ty W) d c t,
  make_class P d = Ok c -> inherited_names d <> [] -> exists m, filter_by_tag c t = Raise (mkexc AttributeError m).
Proof. exact (@c62_inherited_refuted_proof). Qed.
Print Assumptions c62_inherited_refuted.

Example c62_case : exists a b f g m,
  make_class demo0 (cdecl 0 SCheck [("x", AHint (HTy TInt) [ATag 1; ATag 2]); ("z", AHint (HTy TInt) [ATag 2])] [BOther] []) = Ok a /\
  filter_by_tag a 1 = Ok [("x", f)] /\ filter_by_tag a 2 = Ok [("x", f); ("z", g)] /\ filter_by_tag a 3 = Ok [] /\
  make_class demo0 (cdecl 1 SCheck [("w", AHint (HTy TInt) [ATag 1])] [BRecord a] []) = Ok b /\
  filter_by_tag b 1 = Raise (mkexc AttributeError m).
Proof. eexists; eexists; eexists; eexists; eexists. repeat (split; [reflexivity|]). reflexivity. Qed.

(** C75 refuted: a class that inherits a record class's fields together with a pre_bind that
    adds something to one of them cannot be created, because that field is sealed. *)
Theorem c75_prebind_inherited_refuted : forall {obj ty W} (P : Py obj ty W) d b o c,
  In (BRecord b) (d_bases d) -> made P b -> In o (d_prebind d) -> In (fst o) (keys (c_fields b)) ->
  make_class P d <> Ok c.
Proof. exact (@c75_prebind_inherited_refuted_proof). Qed.
Print Assumptions c75_prebind_inherited_refuted.

(** class A: x: int, pre_bind adds a validator to x;  class B(A): z: int -- RuntimeError *)
Example c75_case : exists a m,
  make_class demo0 (cdecl 0 SCheck [("x", AHint (HTy TInt) [])] [BOther] [("x", (None, TValid (VGlobal (fun _ => Ok (fun x => ret x)))))]) = Ok a /\
  make_class demo0 (cdecl 1 SCheck [("z", AHint (HTy TInt) [])] [BRecord a] [("x", (None, TValid (VGlobal (fun _ => Ok (fun x => ret x)))))])
  = Raise (mkexc RuntimeError m).
Proof. eexists; eexists. split; reflexivity. Qed.

(** C15/C18 for classes: every field of a record class has the filler that its declaration
    and the declaring class's pre_bind make, also when it is inherited; nothing can be
    applied to it any more. *)
Theorem c18_class_fields : forall {obj ty W} (P : Py obj ty W) c k f,
  made P c -> dget k (c_fields c) = Some f ->
  f_name f = k /\
  (exists s h ops, make_filler P s h ops = Ok (f_filler f)) /\
  (forall key t, exists e, apply_at P key t (f_filler f) = Raise e) /\
  (forall s, exists e, bind_filler P s (f_filler f) = Raise e).
Proof. exact (@c18_class_fields_proof). Qed.
Print Assumptions c18_class_fields.
