(** Props_Attrs.v -- property theorems: C139: fields and attributes with the names of methods
    Each theorem is closed by the lemma of the same statement in Attrs_main.v; the examples
    show that concrete, non-trivial cases meet the hypotheses. *)

From Verif Require Import Base Py Select Filler Classes Runtime Record Spec_Record Attrs Spec_Attrs Demo DemoRt DemoCls.
From Verif Require Import Dict_proofs Record_proofs Select_proofs.
Open Scope string_scope.
Open Scope list_scope.

From Verif Require Import Attrs_main.

(** C139, what does hold: if no field of the record classes has the name of a method or
    attribute that records look up, constructing is as if nothing were looked up *)
Theorem c139_construct_partial : forall {obj ty W} (R : Rt obj ty W) K c,
  plain_names c ->
  forall fuel pos kw w, construct_n R K fuel c pos kw w = construct R fuel c pos kw w.
Proof. exact (@c139_construct_partial_proof). Qed.
Print Assumptions c139_construct_partial.

(** ... and for records that have no attribute with such a name, so are exporting, repr, hash,
    comparing and copying *)
Theorem c139_records_partial : forall {obj ty W} (R : Rt obj ty W) ctx K x w,
  (forall t c, ctx t = Some c -> plain_names c) -> plain_attrs R w x ->
  (forall a, to_dict_n R ctx K x a w = to_dict R ctx x a sel_empty w) /\
  (forall a, repr_n R ctx K x a w = repr R ctx x a w) /\
  hash_n R ctx K x w = record_hash R ctx x w /\
  (forall op y, cmp_method_n R ctx K op x y w = cmp_method R ctx op x y w) /\
  (forall fuel, copy_n R ctx K fuel x w = copy R ctx fuel x w).
Proof. exact (@c139_records_partial_proof). Qed.
Print Assumptions c139_records_partial.

(** ... == and deepcopy, if the code that hashing or copying the values runs gives the records
    no such attributes *)
Theorem c139_eq_partial : forall {obj ty W} (R : Rt obj ty W) ctx K x y w,
  (forall t c, ctx t = Some c -> plain_names c) -> plain_attrs R w x ->
  (forall h w1, record_hash R ctx x w = (Ok h, w1) -> plain_attrs R w1 y) ->
  (forall h h' w1 w2, record_hash R ctx x w = (Ok h, w1) -> record_hash R ctx y w1 = (Ok h', w2) -> plain_attrs R w2 x) ->
  eq_n R ctx K x y w = record_eq R ctx x y w.
Proof. exact (@c139_eq_partial_proof). Qed.
Print Assumptions c139_eq_partial.

Theorem c139_deepcopy_partial : forall {obj ty W} (R : Rt obj ty W) ctx K fuel x w,
  (forall t c, ctx t = Some c -> plain_names c) -> plain_attrs R w x ->
  (forall d w1 vs w2, to_dict R ctx x no_args sel_empty w = (Ok d, w1) -> deep_copy R (dvalues d) w1 = (Ok vs, w2) -> plain_attrs R w2 x) ->
  deepcopy_n R ctx K fuel x w = deepcopy R ctx fuel x w.
Proof. exact (@c139_deepcopy_partial_proof). Qed.
Print Assumptions c139_deepcopy_partial.

(** C139 refuted: a record with a field, or in a class that is not frozen an attribute, called
    to_dict whose value can not be called has no repr and no deep copy, and if the class is
    frozen no hash *)
Theorem c139_to_dict_refuted : forall {obj ty W} (R : Rt obj ty W) ctx K x w i c v e,
  lookup R w x = Some i -> ctx (i_cls i) = Some c -> dget "to_dict" (i_dict i) = Some v ->
  (forall w, call_value K v [] w = (Raise e, w)) ->
  (forall a, repr_n R ctx K x a w = (Raise e, w)) /\
  (forall fuel, deepcopy_n R ctx K fuel x w = (Raise e, w)) /\
  (c_frozen c = true -> i_hash i = SNone -> ~ In "_hash" (keys (c_fields c)) -> hash_n R ctx K x w = (Raise e, w)).
Proof. exact (@c139_to_dict_refuted_proof). Qed.
Print Assumptions c139_to_dict_refuted.

(** C139 refuted: a class with a field called post_new whose values can not be called has no
    records: constructing calls the value of the field *)
Theorem c139_post_new_refuted : forall {obj ty W} (R : Rt obj ty W) K c n kw w x w',
  In "post_new" (keys (c_fields c)) -> no_reserved kw ->
  (forall v w, exists m, call_value K v [] w = (Raise (Exc TypeError m None), w)) ->
  construct_n R K (S n) c None kw w <> (Ok x, w').
Proof. exact (@c139_post_new_refuted_proof). Qed.
Print Assumptions c139_post_new_refuted.

(** C139 refuted: a frozen class with a field called _hash forgets the value it is given: the
    new record has None there *)
Theorem c139_hash_refuted : forall {obj ty W} (R : Rt obj ty W) K c n kw w x w',
  In "_hash" (keys (c_fields c)) -> ~ In "post_new" (keys (c_fields c)) -> c_frozen c = true -> no_reserved kw -> known c kw ->
  (forall y w, c_post_new c y w = (Ok (o_none (rt_py R)), w)) ->
  construct_n R K (S n) c None kw w = (Ok x, w') ->
  getattr R x "_hash" w' = (Ok (o_none (rt_py R)), w').
Proof. exact (@c139_hash_refuted_proof). Qed.
Print Assumptions c139_hash_refuted.

(** C139 refuted: the field _hash of a frozen class is not data.  Hashing a record that has None there
    changes the record: the field then holds the hash.  What else the field holds is taken for the
    hash, so that hash raises TypeError if it is not an int. *)
Theorem c139_hash_field_refuted : forall {obj ty W} (R : Rt obj ty W) ctx K x w i c,
  lookup R w x = Some i -> ctx (i_cls i) = Some c -> c_frozen c = true -> In "_hash" (keys (c_fields c)) ->
  (dget "_hash" (i_dict i) = Some (o_none (rt_py R)) -> forall h w' j, hash_n R ctx K x w = (Ok h, w') ->
     lookup R w' x = Some j -> getattr R x "_hash" w' = (Ok (int_obj K h), w')) /\
  (forall v, dget "_hash" (i_dict i) = Some v -> v <> o_none (rt_py R) ->
     match int_of R v with
     | Some z => hash_n R ctx K x w = (Ok z, w)
     | None => exists m, hash_n R ctx K x w = (Raise (Exc TypeError m None), w)
     end) /\
  (dget "_hash" (i_dict i) = None -> exists m, hash_n R ctx K x w = (Raise (Exc TypeError m None), w)).
Proof. exact (@c139_hash_field_refuted_proof). Qed.
Print Assumptions c139_hash_field_refuted.

(** C139 refuted: a class that is not frozen with a field called from_instance has no copies *)
Theorem c139_copy_refuted : forall {obj ty W} (R : Rt obj ty W) ctx K x w i c,
  lookup R w x = Some i -> ctx (i_cls i) = Some c -> c_frozen c = false ->
  In "from_instance" (keys (c_fields c)) -> ~ In "_frozen" (keys (c_fields c)) ->
  ~ In "is_frozen" (keys (c_fields c)) -> ~ In "is_frozen" (keys (i_dict i)) ->
  forall fuel, copy_n R ctx K fuel x w = (Raise (Exc TypeError "'RecordField' object is not callable" None), w).
Proof. exact (@c139_copy_refuted_proof). Qed.
Print Assumptions c139_copy_refuted.

(** C139 refuted: a class that is not frozen but adds a field called _frozen is taken to be
    frozen: copying a record gives the record itself, and comparing two of its records raises
    TypeError *)
Theorem c139_frozen_refuted : forall {obj ty W} (R : Rt obj ty W) ctx K x y w i c f,
  lookup R w x = Some i -> ctx (i_cls i) = Some c -> c_frozen c = false ->
  dget "_frozen" (c_fields c) = Some f -> f_owner f = c_ty c ->
  ~ In "is_frozen" (keys (c_fields c)) -> ~ In "is_frozen" (keys (i_dict i)) -> type_of (rt_py R) x = type_of (rt_py R) y ->
  (forall fuel, copy_n R ctx K fuel x w = (Ok x, w)) /\
  (exists m, eq_n R ctx K x y w = (Raise (Exc TypeError m None), w)).
Proof. exact (@c139_frozen_refuted_proof). Qed.
Print Assumptions c139_frozen_refuted.

(** C139 refuted: with a field called is_frozen, records can not be compared with records of
    their type at all; with a field called parse, the constructor takes no argument to parse *)
Theorem c139_callable_refuted : forall {obj ty W} (R : Rt obj ty W) K c,
  (In "is_frozen" (keys (c_fields c)) -> forall ctx x y w i,
     lookup R w x = Some i -> ctx (i_cls i) = Some c -> type_of (rt_py R) x = type_of (rt_py R) y ->
     eq_n R ctx K x y w = (Raise (Exc TypeError "'RecordField' object is not callable" None), w)) /\
  (In "parse" (keys (c_fields c)) -> forall n a w, c_unary c = true ->
     construct_n R K (S n) c (Some a) [] w = (Raise (Exc TypeError "'RecordField' object is not callable" None), w)).
Proof. exact (@c139_callable_refuted_proof). Qed.
Print Assumptions c139_callable_refuted.

(** values can not be called; the items of a dict *)
Definition demo_calls : Calls dobj rstate :=
  {| call_value := fun _ _ => raise (Exc TypeError "object is not callable" None);
     items_of := unpack (demo_rt 0); dict_obj := mapping; int_obj := DInt |}.

(** a plain class; one with each of the troublesome fields, with a default as C105 says *)
Definition plain_decl := rdecl 0 true true (Some true) SCheck [("x", (an TInt, NoDefault)); ("y", (an TInt, DefVal (DInt 0)))] [] no_post.
Definition bad_decl (frozen : bool) (k : string) := rdecl 1 frozen false (Some true) SCheck [("x", (an TInt, NoDefault)); (k, (an TInt, DefVal (DInt 0)))] [] no_post.
Definition attr_ctx (k : string) (t : dty) : option (@cls dobj dty rstate) :=
  match t with TRec 0 => Some (made_of plain_decl) | TRec 1 => Some (made_of (bad_decl true k)) | _ => None end.
Definition built (c : @cls dobj dty rstate) (kw : dict dobj) : dobj * rstate :=
  match construct_n (demo_rt 0) demo_calls 1 c None kw w0 with (Ok x, w) => (x, w) | (Raise _, w) => (DNone, w) end.

Example c139_plain : plain_names (made_of plain_decl) /\
  fst (construct_n (demo_rt 0) demo_calls 1 (made_of plain_decl) None [("x", DInt 1)] w0) = Ok (DRef (TRec 0) 0) /\
  let (x, w) := built (made_of plain_decl) [("x", DInt 1)] in
  plain_attrs (demo_rt 0) w x /\ fst (repr_n (demo_rt 0) (fun _ => Some (made_of plain_decl)) demo_calls x no_args w) = Ok "C(x=1)".
Proof.
  split; [|split; [reflexivity|split; [|reflexivity]]].
  - intros k HK HI. cbn in HK, HI. intuition congruence.
  - intros i k E HK HI. cbn in E. injection E as <-. cbn in HK, HI. intuition congruence.
Qed.

(** a field called to_dict: repr raises *)
Example c139_to_dict : let (x, w) := built (made_of (bad_decl true "to_dict")) [("x", DInt 1); ("to_dict", DInt 5)] in
  repr_n (demo_rt 0) (attr_ctx "to_dict") demo_calls x no_args w = (Raise (Exc TypeError "object is not callable" None), w) /\
  hash_n (demo_rt 0) (attr_ctx "to_dict") demo_calls x w = (Raise (Exc TypeError "object is not callable" None), w).
Proof. split; reflexivity. Qed.

(** a field called post_new: no records; called _hash: the value is lost; _frozen: the copy is
    the record itself *)
Example c139_others :
  is_ok (fst (construct_n (demo_rt 0) demo_calls 1 (made_of (bad_decl false "post_new")) None [("x", DInt 1)] w0)) = false /\
  (let (x, w) := built (made_of (bad_decl true "_hash")) [("x", DInt 1); ("_hash", DInt 7)] in
   fst (getattr (demo_rt 0) x "_hash" w) = Ok DNone /\
   let (h, w1) := hash_n (demo_rt 0) (attr_ctx "_hash") demo_calls x w in
   is_ok h = true /\ fst (getattr (demo_rt 0) x "_hash" w1) <> Ok DNone) /\
  (let (x, w) := built (made_of (bad_decl false "from_instance")) [("x", DInt 1)] in
   copy_n (demo_rt 0) (fun _ => Some (made_of (bad_decl false "from_instance"))) demo_calls 1 x w =
   (Raise (Exc TypeError "'RecordField' object is not callable" None), w)) /\
  (let (x, w) := built (made_of (bad_decl false "_frozen")) [("x", DInt 1)] in
   fst (copy_n (demo_rt 0) (fun _ => Some (made_of (bad_decl false "_frozen"))) demo_calls 1 x w) = Ok x).
Proof. repeat split; try reflexivity. discriminate. Qed.
