(** Props_Bodies.v -- property theorems: class statements: Final, defaults, parsers and default_type_check (RecordBase.__init_subclass__)
    Each theorem is closed by the lemma of the same statement in Bodies_main.v; the examples
    show that concrete, non-trivial cases meet the hypotheses. *)

From Verif Require Import Base Py Filler Spec_Filler Spec_State Spec_Typing Classes Spec_Classes Bodies Spec_Bodies Demo.
From Coq Require Import Sorted.
From Verif Require Dict_proofs Filler_proofs Classes_proofs Classes_main Typing_main Bodies_proofs.
Open Scope string_scope.
Open Scope list_scope.

From Verif Require Import Bodies_main.

(** C104: in a frozen class, Final[...] around annotations makes no difference. *)
Theorem c104_final_partial : forall {obj ty W} (P : Py obj ty W) d s,
  d_frozen d = true -> make_class P (finally s d) = make_class P d.
Proof. exact (@c104_final_partial_proof). Qed.
Print Assumptions c104_final_partial.

(** ... and in a class that is not frozen, there is no class, and a TypeError if that is all
    that is wrong *)
Theorem c104_not_frozen : forall {obj ty W} (P : Py obj ty W) d k a,
  d_frozen d = false -> dict_ok (d_anns d) -> dget k (d_anns d) = Some a -> is_final a = true ->
  (forall c, make_class P d <> Ok c) /\
  ((forall k' a', dget k' (d_anns d) = Some a' -> is_final a' = false ->
      exists r, from_type_hint P false (d_ty d) k' (d_static d k') a' = Ok r) ->
   exists m, make_class P d = Raise (mkexc TypeError m)).
Proof. exact (@c104_not_frozen_proof). Qed.
Print Assumptions c104_not_frozen.

Definition fdecl (n : nat) (frozen : bool) (style : style) (anns : dict (@ann dobj dty demo_state)) (bases : list (@base dobj dty demo_state)) :=
  Decl (TRec n) frozen false None style anns (flat_map (fun b => match b with BRecord c => keys (c_fields c) | BOther => [] end) bases)
       (fun k => if String.eqb k "y" then DefVal (DInt 0) else NoDefault) bases [] [] (fun _ => ret DNone).
Example c104_case :
  (exists c, make_class demo0 (fdecl 0 true SCheck [("x", AFinal (AHint (HTy TInt) [ATag 3]) []); ("y", AHint (HTy TInt) [])] [BOther]) = Ok c /\
     keys (c_fields c) = ["x"; "y"]) /\
  (exists m, make_class demo0 (fdecl 0 false SCheck [("y", AHint (HTy TInt) []); ("x", AFinal (AHint (HTy TInt) [ATag 3]) [])] [BOther])
     = Raise (mkexc TypeError m)).
Proof. split; eexists; [split; reflexivity|reflexivity]. Qed.

(** C104 refuted: tokens in an Annotated around Final are dropped without an error.  The
    annotation Annotated[int, v] refuses an object that Annotated[Final[int], v] stores. *)
Theorem c104_annotated_refuted :
  exists obj ty W (P : Py obj ty W) d h tok c c' f f' x w,
    d_frozen d = true /\ d_anns d = [("x", AHint h [ATok tok])] /\
    make_class P d = Ok c /\ dget "x" (c_fields c) = Some f /\
    make_class P (Decl (d_ty d) (d_frozen d) (d_ordered d) (d_unary d) (d_style d) [("x", AFinal (AHint h []) [ATok tok])]
                       (d_inherited_anns d) (d_static d) (d_bases d) (d_prebind d) (d_parsers d) (d_post_new d)) = Ok c' /\
    dget "x" (c_fields c') = Some f' /\
    is_ok (fst (call P (f_filler f) x w)) = false /\ call P (f_filler f') x w = (Ok x, w).
Proof. exact (@c104_annotated_refuted_proof). Qed.
Print Assumptions c104_annotated_refuted.

(** ... and always: of the arguments around Final, only the tags count *)
Theorem c104_dropped : forall {obj ty W} (P : Py obj ty W) frozen owner k dflt h inner args f,
  from_type_hint P frozen owner k dflt (AFinal (AHint h inner) args) = Ok (Some f) ->
  get_filler P (full_hint h inner) = Ok (f_filler f) /\
  (forall n, In n (f_tags f) <-> In n (arg_tags inner ++ arg_tags args)).
Proof. exact (@c104_dropped_proof). Qed.
Print Assumptions c104_dropped.

(** C105, the rule: a field that a class statement declares has as its default what the
    nearest class has under its name, looking at the body, the bases in resolution order and
    then the metaclass; and no default if none has anything. *)
Theorem c105_default : forall {obj ty W} (P : Py obj ty W) b c k,
  create P b = Ok c -> dict_ok (b_anns b) -> good_bases P b -> declares b k ->
  exists f, dget k (c_fields c) = Some f /\
    (forall e, nearest k e (b_body b :: b_mro b ++ b_meta b) -> f_default f = as_default e) /\
    ((forall n, In n (b_body b :: b_mro b ++ b_meta b) -> dget k n = None) -> f_default f = NoDefault).
Proof. exact (@c105_default_proof). Qed.
Print Assumptions c105_default.

(** C105, what does hold: a field whose name no base class and no metaclass uses is required
    exactly if the class body gives it no value, and its default is that value otherwise *)
Theorem c105_required_partial : forall {obj ty W} (P : Py obj ty W) b c k,
  create P b = Ok c -> dict_ok (b_anns b) -> good_bases P b -> declares b k ->
  (forall n, In n (b_mro b ++ b_meta b) -> dget k n = None) ->
  (In k (required_keys (c_fields c)) <-> ~ In k (keys (b_body b))) /\
  (forall e, dget k (b_body b) = Some e -> exists f, dget k (c_fields c) = Some f /\ f_default f = as_default e).
Proof. exact (@c105_required_partial_proof). Qed.
Print Assumptions c105_required_partial.

(** C105 refuted: a field whose name happens to be that of something in a base class, like
    the parse of RecordBase, is not required although the class body gives it no value. *)
Theorem c105_names_refuted : forall {obj ty W} (P : Py obj ty W) b c k e,
  create P b = Ok c -> dict_ok (b_anns b) -> good_bases P b -> declares b k ->
  dget k (b_body b) = None -> nearest k e (b_mro b ++ b_meta b) ->
  ~ In k (required_keys (c_fields c)) /\ exists f, dget k (c_fields c) = Some f /\ f_default f = as_default e.
Proof. exact (@c105_names_refuted_proof). Qed.
Print Assumptions c105_names_refuted.

Definition method (n : Z) (p : option (@parser dobj demo_state)) : @entry dobj demo_state := Entry (DInt n) None p.
Definition value (n : Z) : @entry dobj demo_state := Entry (DInt n) None None.
(** the namespaces of RecordBase, object and type, as far as it matters here *)
Definition record_base : @namespace dobj demo_state :=
  [("parse", method 100 None); ("from_mapping", method 101 (Some PFromMapping)); ("from_instance", method 102 (Some PFromInstance));
   ("from_json", method 103 (Some PFromJson)); ("to_dict", method 104 None)].
Definition object_ns : @namespace dobj demo_state := [("__eq__", method 200 None)].
Definition type_ns : @namespace dobj demo_state := [("mro", method 300 None)].
Definition cbody (n : nat) anns ns mro bases : @body dobj dty demo_state :=
  Body (TRec n) false false None SHollow anns [] ns (mro ++ [record_base; object_ns]) [type_ns] (fun _ => DNone) bases [] (fun _ => ret DNone).
Definition an (t : dty) : @ann dobj dty demo_state := AHint (HTy t) [].
(** class A(RecordBase): x: int; y: int = 7; z: int = Factory(..); parse: int; mro: int *)
Definition bodyA := cbody 0 [("x", an TInt); ("y", an TInt); ("z", an TInt); ("parse", an TInt); ("mro", an TInt)]
  [("y", value 7); ("z", Entry DNone (Some (ret (DInt 8))) None)] [] [BOther].
Example c105_case : exists c, create demo0 bodyA = Ok c /\ required_keys (c_fields c) = ["x"] /\
  map (fun kf => f_default (snd kf)) (c_fields c) =
    [NoDefault; DefVal (DInt 7); DefFactory (ret (DInt 8)); DefVal (DInt 100); DefVal (DInt 300)].
Proof. eexists. split; [reflexivity|]. split; reflexivity. Qed.

(** C106: the parsers of a class are the callables marked with @parser that it has, also
    by inheritance: those that no nearer class and no field of it hides.  Each is there once,
    in the order of the names. *)
Theorem c106_parsers : forall {obj ty W} (P : Py obj ty W) b c,
  create P b = Ok c -> dict_ok (b_anns b) ->
  exists names, NoDup names /\ StronglySorted (fun k k' => String.leb k k' = true) names /\
    Forall2 (parser_at b) names (c_parsers c) /\
    forall k p, parser_at b k p -> In k names.
Proof. exact (@c106_parsers_proof). Qed.
Print Assumptions c106_parsers.

(** ... so a subclass has the parsers of its base, but for those whose names its body or
    its fields use for something else, and every marked callable of its own body *)
Theorem c106_inherited : forall {obj ty W} (P : Py obj ty W) b0 c0 b c k p,
  create P b0 = Ok c0 -> dict_ok (b_anns b0) -> create P b = Ok c -> dict_ok (b_anns b) ->
  b_mro b = namespace_of P b0 :: b_mro b0 ->
  ~ In k (keys (b_body b)) -> ~ declares b k ->
  (parser_at b k p <-> parser_at b0 k p).
Proof. exact (@c106_inherited_proof). Qed.
Print Assumptions c106_inherited.

(** What Classes.v assumes of the parsers is so: if nothing takes the place of the parsers of
    RecordBase, the class is the one that [make_class] makes, given the users' parsers. *)
Theorem c106_as_assumed : forall {obj ty W} (P : Py obj ty W) b c,
  create P b = Ok c -> dict_ok (b_anns b) -> builtins_stand b ->
  exists user, dict_ok user /\
    (forall k f, In (k, f) user <-> parser_at b k (PUser f)) /\
    make_class P (with_user_parsers (decl_of b) user) = Ok c.
Proof. exact (@c106_as_assumed_proof). Qed.
Print Assumptions c106_as_assumed.

(** class B(A): w: int; from_json = None; @parser first, zeroth *)
Definition user_parser : dobj -> M demo_state dobj := fun x => ret x.
Definition bodyB := cbody 1 [("w", an TInt); ("from_instance", an TInt)]
  [("zeroth", method 1 (Some (PUser user_parser))); ("from_json", value 0); ("first", method 2 (Some (PUser user_parser)))]
  [namespace_of demo0 bodyA] [BOther].
Example c106_case : (exists c, create demo0 bodyA = Ok c /\ c_parsers c = [PFromInstance; PFromJson; PFromMapping]) /\
  (exists c, create demo0 bodyB = Ok c /\ c_parsers c = [PUser user_parser; PFromMapping; PUser user_parser]).
Proof. split; eexists; (split; reflexivity). Qed.
Example c106_stand : builtins_stand bodyA.
Proof.
  assert (ND : forall k p, builtin (obj:=dobj) (W:=demo_state) k = Some p -> ~ declares bodyA k).
  { intros k p E (a & Ea & _). unfold builtin in E. cbn in Ea.
    repeat match type of E with context [String.eqb k ?s] => destruct (String.eqb_spec k s) as [->|]; [cbn in Ea; discriminate|] end. discriminate. }
  split.
  - intros k p E. split; [eapply ND; eassumption|]. unfold builtin in E.
    repeat match type of E with context [String.eqb k ?s] => destruct (String.eqb_spec k s) as [->|]; [injection E as <-; eexists; split; [apply nearest_later; [reflexivity|apply nearest_here; reflexivity]|reflexivity]|] end. discriminate.
  - intros k p (_ & e & HN & Ep) EB. exfalso. apply Bodies_proofs.find_in_nearest in HN. cbn in HN. unfold builtin in EB.
    repeat match type of HN with context [String.eqb k ?s] => destruct (String.eqb_spec k s) as [->|]; [cbn in *; first [discriminate|injection HN as <-; discriminate]|] end. discriminate.
Qed.

(** C107, what does hold: a field of a class, declared without coercers and validators,
    accepts exactly what belongs to its annotation under the default_type_check of the class
    that declares it -- also in a class that inherits it, whatever that class's own is. *)
Theorem c107_declaring_class_partial : forall {obj ty W} (P : Py obj ty W) d c k a,
  plain_errors P -> make_class P d = Ok c -> dict_ok (d_anns d) ->
  (forall b, In (BRecord b) (d_bases d) -> made P b) ->
  dget k (d_anns d) = Some a -> is_field a = true -> ops_for k (d_prebind d) = [] -> Forall callback_free (hint_tokens (declared_hint a)) ->
  exists f, dget k (c_fields c) = Some f /\
    accepts_exactly (call P (f_filler f)) (belongs P (d_style d) [] [] (declared_hint a)) /\
    forall d' c', make_class P d' = Ok c' -> dict_ok (d_anns d') ->
      (forall b, In (BRecord b) (d_bases d') -> made P b) -> In (BRecord c) (d_bases d') ->
      dget k (c_fields c') = Some f.
Proof. exact (@c107_declaring_class_partial_proof). Qed.
Print Assumptions c107_declaring_class_partial.

(** C107 refuted: a class with default_type_check=check can have a field x: int, inherited,
    that stores objects that are not ints. *)
Theorem c107_inherited_refuted :
  exists obj ty W (P : Py obj ty W) d0 c0 d c t f x w,
    make_class P d0 = Ok c0 /\ d_anns d0 = [("x", AHint (HTy t) [])] /\ d_bases d = [BRecord c0] /\ d_style d = SCheck /\
    make_class P d = Ok c /\ dget "x" (c_fields c) = Some f /\
    isinstance P x t = false /\ call P (f_filler f) x w = (Ok x, w).
Proof. exact (@c107_inherited_refuted_proof). Qed.
Print Assumptions c107_inherited_refuted.

Example c107_case : exists a b f g,
  make_class demo0 (fdecl 0 false SHollow [("x", an TInt)] [BOther]) = Ok a /\
  make_class demo0 (fdecl 1 false SStrict [("z", an TInt)] [BRecord a]) = Ok b /\
  dget "x" (c_fields b) = Some f /\ dget "z" (c_fields b) = Some g /\
  call demo0 (f_filler f) (DStr "s") st0 = (Ok (DStr "s"), st0) /\ is_ok (fst (call demo0 (f_filler g) (DStr "s") st0)) = false.
Proof. eexists; eexists; eexists; eexists. repeat (split; [reflexivity|]). reflexivity. Qed.

(** C117 refuted: whatever a class body says about an inherited field, the field is the one
    the base has, with the default of the base. *)
Theorem c117_default_refuted : forall {obj ty W} (P : Py obj ty W) b c c0 k f0,
  create P b = Ok c -> dict_ok (b_anns b) -> good_bases P b ->
  In (BRecord c0) (b_bases b) -> dget k (c_fields c0) = Some f0 ->
  dget k (c_fields c) = Some f0 /\
  (forall e, dget k (b_body b) = Some e -> f_default f0 <> as_default e ->
     forall f, dget k (c_fields c) = Some f -> f_default f <> as_default e).
Proof. exact (@c117_default_refuted_proof). Qed.
Print Assumptions c117_default_refuted.

(** class B(A): y = 9; w: int = 1, where A has y: int = 7 *)
Definition bodyC := cbody 1 [("w", an TInt)] [("y", value 9); ("w", value 1)] [namespace_of demo0 bodyA]
  [BRecord (match create demo0 bodyA with Ok c => c | Raise _ => Cls TNone [] true false false false SCheck [] (fun _ => ret DNone) end)].
Example c117_bases : dict_ok (b_anns bodyC) /\ good_bases demo0 bodyC.
Proof.
  split; [repeat constructor; cbn; intuition discriminate|].
  intros c [H|[]]. injection H as <-. apply (made_class demo0 (decl_of bodyA)); [reflexivity|repeat constructor; cbn; intuition discriminate|].
  intros b [H|[]]; discriminate.
Qed.
Example c117_case : exists c f, create demo0 bodyC = Ok c /\ dget "y" (b_body bodyC) = Some (value 9) /\
  dget "y" (c_fields c) = Some f /\ f_default f = DefVal (DInt 7).
Proof. do 2 eexists. repeat (split; [reflexivity|]). reflexivity. Qed.
