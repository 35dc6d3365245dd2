(** Props_New.v -- property theorems: constructing and parsing records (RecordBase.__new__, parse)
    Each theorem is closed by the lemma of the same statement in New_main.v; the examples
    show that concrete, non-trivial cases meet the hypotheses. *)

From Verif Require Import Base Py Select Filler Classes Spec_Classes Runtime Record Spec_Record Demo DemoRt DemoCls.
From Verif Require Dict_proofs Filler_proofs Classes_proofs Record_proofs Classes_main.
Open Scope string_scope.
Open Scope list_scope.

From Verif Require Import New_main.

(** C20: a construction that succeeds fills the passed values in keyword order, gives the
    omitted fields their defaults, allocates the instance and lets post_new look at it. *)
Theorem c20_construct : forall {obj ty W} (R : Rt obj ty W) c n kw w x w',
  no_reserved kw -> construct R n c None kw w = (Ok x, w') ->
  known c kw /\ complete c kw /\
  exists self w2, initialized R c kw w self w2 /\ post_new_result R c self w2 = (Ok x, w').
Proof. exact (@c20_construct_proof). Qed.
Print Assumptions c20_construct.

(** ... if post_new does not replace or alter it, the result is an instance of the class with exactly the declared
    fields; passed fields hold what their fillers returned, the others their defaults. *)
Theorem c20_instance : forall {obj ty W} (R : Rt obj ty W) c n kw w x w',
  made (rt_py R) c -> dict_ok kw -> no_reserved kw -> only_validates R c ->
  construct R n c None kw w = (Ok x, w') ->
  exists i, lookup R w' x = Some i /\ i_cls i = c_ty c /\ type_of (rt_py R) x = c_ty c /\
    Permutation (keys (i_dict i)) (keys (c_fields c)) /\
    (forall k v, dget k kw = Some v -> exists f y wa wb, dget k (c_fields c) = Some f /\ dget k (i_dict i) = Some y /\
        call (rt_py R) (f_filler f) v wa = (Ok y, wb)) /\
    (forall k f, dget k (c_fields c) = Some f -> dget k kw = None -> exists v wa wb, dget k (i_dict i) = Some v /\ default_of f wa v wb).
Proof. exact (@c20_instance_proof). Qed.
Print Assumptions c20_instance.

(** ... and it does succeed if every value can be filled, no default raises and post_new
    accepts the instance. *)
Theorem c20_succeeds : forall {obj ty W} (R : Rt obj ty W) c n kw w vs w1,
  no_reserved kw -> known c kw -> complete c kw -> filled R c kw w vs w1 ->
  (forall order, Permutation (omitted c kw) order -> exists ds w2, defaulted c order w1 ds w2) ->
  (forall self w2, initialized R c kw w self w2 -> exists x w3, post_new_result R c self w2 = (Ok x, w3)) ->
  exists x w', construct R (S n) c None kw w = (Ok x, w').
Proof. exact (@c20_succeeds_proof). Qed.
Print Assumptions c20_succeeds.

(** class C(RecordBase, default_type_check=check): x: int; y: int = 0 *)
Definition declXY := rdecl 0 false false None SCheck [("x", (an TInt, NoDefault)); ("y", (an TInt, DefVal (DInt 0)))] [] no_post.
Definition XY := made_of declXY.
Lemma XY_made : made rt0 XY.
Proof.
  apply made_class with (d := declXY); [reflexivity| |intros b [E|[]]; discriminate].
  repeat constructor; cbn; intuition discriminate.
Qed.
Example c20_case : forall seed,
  construct (demo_rt seed) 1 XY None [("x", DInt 5)] w0 = (Ok (DRef (TRec 0) 0), RState [] [Inst (TRec 0) [("x", DInt 5); ("y", DInt 0)] SUnset] []).
Proof. intro seed. reflexivity. Qed.
(** post_new raises a ValueError if x is not positive, and logs the record otherwise *)
Definition checking : dobj -> M rstate dobj := fun self w =>
  match lookup (demo_rt 0) w self with
  | Some i => match dget "x" (i_dict i) with
              | Some (DInt z) => if (0 <? z)%Z then (Ok self, RState (rs_lit w) (rs_heap w) (self :: rs_log w)) else (Raise (mkexc ValueError "x"), w)
              | _ => (Raise (mkexc TypeError "x"), w)
              end
  | None => (Raise (mkexc TypeError "self"), w)
  end.
Definition declCh := rdecl 0 false false None SCheck [("x", (an TInt, NoDefault)); ("y", (an TInt, DefVal (DInt 0)))] [] checking.
Example c20_validates_case : forall seed, made rt0 (made_of declCh) /\ only_validates (demo_rt seed) (made_of declCh) /\
  construct (demo_rt seed) 1 (made_of declCh) None [("x", DInt 5)] w0 = (Ok (DRef (TRec 0) 0), RState [] [Inst (TRec 0) [("x", DInt 5); ("y", DInt 0)] SUnset] [DRef (TRec 0) 0]) /\
  fst (construct (demo_rt seed) 1 (made_of declCh) None [("x", DInt (-5))] w0) = Raise (mkexc ValueError "x").
Proof.
  intro seed. split; [|split; [|split; reflexivity]].
  - apply made_class with (d := declCh); [reflexivity| |intros b [E|[]]; discriminate]. repeat constructor; cbn; intuition discriminate.
  - intros self w x w' H. unfold post_new_result in H. change (c_post_new (made_of declCh)) with checking in H. unfold bind, checking in H.
    destruct (lookup (demo_rt 0) w self) as [i|] eqn:E; [|discriminate]. destruct (dget "x" (i_dict i)) as [[]|]; try discriminate.
    destruct (0 <? _)%Z; [|discriminate]. cbn -[truth] in H. unfold lookup in E. destruct self; try discriminate. cbn in H.
    assert (EX : x = DRef t n /\ w' = RState (rs_lit w) (rs_heap w) (DRef t n :: rs_log w)).
    { match type of H with ret (if ?b then _ else _) _ = _ => destruct b end; injection H as <- <-; auto. }
    destruct EX as [-> ->]. split; [reflexivity|]. intros j L. exists j. auto.
Qed.

(** C21: a key that is not a field is a TypeError before anything happens. *)
Theorem c21_unknown : forall {obj ty W} (R : Rt obj ty W) c n kw w k,
  no_reserved kw -> In k (keys kw) -> ~ In k (keys (c_fields c)) ->
  exists m, construct R (S n) c None kw w = (Raise (mkexc TypeError m), w).
Proof. exact (@c21_unknown_proof). Qed.
Print Assumptions c21_unknown.

(** ... and a construction without one of the required fields never succeeds: it raises
    TypeError once the given values have been filled. *)
Theorem c21_missing : forall {obj ty W} (R : Rt obj ty W) c n kw w,
  no_reserved kw -> ~ complete c kw ->
  (forall x w', construct R n c None kw w <> (Ok x, w')) /\
  (forall vs w1, known c kw -> filled R c kw w vs w1 -> exists m, construct R (S n) c None kw w = (Raise (mkexc TypeError m), w1)).
Proof. exact (@c21_missing_proof). Qed.
Print Assumptions c21_missing.

Example c21_case : forall seed, exists m m',
  construct (demo_rt seed) 1 XY None [("x", DInt 5); ("z", DInt 5)] w0 = (Raise (mkexc TypeError m), w0) /\
  construct (demo_rt seed) 1 XY None [("y", DInt 5)] w0 = (Raise (mkexc TypeError m'), w0).
Proof. intro seed. eexists; eexists. split; reflexivity. Qed.

(** C22: with exactly one required field, a positional argument is that field. *)
Theorem c22_positional : forall {obj ty W} (R : Rt obj ty W) c n kw w k v,
  required_keys (c_fields c) = [k] -> k <> "cls" -> k <> "self" -> dget "arg" kw = None -> ~ In k (keys kw) ->
  c_unary c = false \/ kw <> [] ->
  construct R (S n) c (Some v) kw w = construct R (S n) c None (kw ++ [(k, v)]) w.
Proof. exact (@c22_positional_proof). Qed.
Print Assumptions c22_positional.

(** giving it both ways is a TypeError *)
Theorem c22_both_ways : forall {obj ty W} (R : Rt obj ty W) c n kw w k v,
  required_keys (c_fields c) = [k] -> ~ reserved k -> no_reserved kw -> In k (keys kw) ->
  exists m, construct R (S n) c (Some v) kw w = (Raise (mkexc TypeError m), w).
Proof. exact (@c22_both_ways_proof). Qed.
Print Assumptions c22_both_ways.

(** with another number of required fields, a positional argument together with keywords is
    a TypeError *)
Theorem c22_no_trivial_field : forall {obj ty W} (R : Rt obj ty W) c n kw w v,
  List.length (required_keys (c_fields c)) <> 1 -> no_reserved kw -> kw <> [] \/ c_unary c = false ->
  exists m, construct R (S n) c (Some v) kw w = (Raise (mkexc TypeError m), w).
Proof. exact (@c22_no_trivial_field_proof). Qed.
Print Assumptions c22_no_trivial_field.

Example c22_case : forall seed, exists m,
  construct (demo_rt seed) 1 XY (Some (DInt 5)) [("y", DInt 6)] w0 =
  (Ok (DRef (TRec 0) 0), RState [] [Inst (TRec 0) [("y", DInt 6); ("x", DInt 5)] SUnset] []) /\
  construct (demo_rt seed) 1 XY (Some (DInt 5)) [("x", DInt 6)] w0 = (Raise (mkexc TypeError m), w0).
Proof. intro seed. eexists. split; reflexivity. Qed.

(** C23: what cls(v) does if unary parsing is on and there is exactly one required field.
    The trivial reading of v is cls(field=v).
    Both readings work: a TypeError. *)
Theorem c23_both : forall {obj ty W} (R : Rt obj ty W) c n k a p s w w1 w2,
  c_unary c = true -> required_keys (c_fields c) = [k] -> ~ reserved k ->
  parse R n c a w = (Ok p, w1) -> p <> o_none (rt_py R) ->
  construct R (S n) c None [(k, a)] w1 = (Ok s, w2) ->
  exists m, construct R (S n) c (Some a) [] w = (Raise (mkexc TypeError m), w2).
Proof. exact (@c23_both_proof). Qed.
Print Assumptions c23_both.

(** Only the trivial reading is left: v cannot be parsed, and cls(v) is cls(field=v). *)
Theorem c23_only_trivial : forall {obj ty W} (R : Rt obj ty W) c n k a e w w1,
  c_unary c = true -> required_keys (c_fields c) = [k] -> ~ reserved k ->
  parse R n c a w = (Raise e, w1) -> is_ParseFailure e = true ->
  construct R (S n) c (Some a) [] w = construct R (S n) c None [(k, a)] w1.
Proof. exact (@c23_only_trivial_proof). Qed.
Print Assumptions c23_only_trivial.

(** Only parsing works: the trivial reading raises an Exception and the parse result is the
    result, provided it is true and no default factory raises. *)
Theorem c23_only_parsing_partial : forall {obj ty W} (R : Rt obj ty W) c n k a p e w w1 w2,
  made (rt_py R) c -> c_unary c = true -> required_keys (c_fields c) = [k] -> ~ reserved k ->
  parse R n c a w = (Ok p, w1) -> p <> o_none (rt_py R) -> (forall w, truth R p w = (Ok true, w)) -> safe_defaults c ->
  construct R (S n) c None [(k, a)] w1 = (Raise e, w2) -> is_Exception e = true ->
  construct R (S n) c (Some a) [] w = (Ok p, w2).
Proof. exact (@c23_only_parsing_partial_proof). Qed.
Print Assumptions c23_only_parsing_partial.

(** Any other error of parse (in particular that several parsers succeeded) is raised. *)
Theorem c23_parse_error : forall {obj ty W} (R : Rt obj ty W) c n a e w w1,
  c_unary c = true -> parse R n c a w = (Raise e, w1) -> is_ParseFailure e = false ->
  construct R (S n) c (Some a) [] w = (Raise e, w1).
Proof. exact (@c23_parse_error_proof). Qed.
Print Assumptions c23_parse_error.

(** Without a trivial field, cls(v) is parse(v); a parser that returns None is a TypeError. *)
Theorem c23_no_trivial_field : forall {obj ty W} (R : Rt obj ty W) c n a w,
  c_unary c = true -> List.length (required_keys (c_fields c)) <> 1 ->
  (forall w1, parse R n c a w <> (Ok (o_none (rt_py R)), w1)) ->
  construct R (S n) c (Some a) [] w = parse R n c a w.
Proof. exact (@c23_no_trivial_field_proof). Qed.
Print Assumptions c23_no_trivial_field.

(** class C(RecordBase, unary_parse=True): x: int;
    a parser that makes C(x=1) of the string 'one' and of the integer 1 *)
Definition parse_one : dobj -> M rstate dobj :=
  fun v w => match v with
             | DStr "one" | DInt 1 => (Ok (DRef (TRec 1) (List.length (rs_heap w))),
                                       RState (rs_lit w) (rs_heap w ++ [Inst (TRec 1) [("x", DInt 1)] SUnset]) (rs_log w))
             | _ => (Raise (mkexc ValueError ""), w)
             end.
Definition declU := rdecl 1 false false (Some true) SCheck [("x", (an TInt, NoDefault))] [("z_parse", parse_one)] no_post.
Definition U := made_of declU.
Example c23_cases : forall seed, exists m m' e,
  let R := demo_rt seed in
  construct R 2 U (Some (DStr "one")) [] w0 = (Ok (DRef (TRec 1) 0), RState [] [Inst (TRec 1) [("x", DInt 1)] SUnset] []) /\
  construct R 2 U (Some (DInt 2)) [] w0 = (Ok (DRef (TRec 1) 0), RState [] [Inst (TRec 1) [("x", DInt 2)] SUnset] []) /\
  fst (construct R 2 U (Some (DInt 1)) [] w0) = Raise (mkexc TypeError m) /\
  construct R 2 U (Some (DStr "two")) [] w0 = (Raise (Exc TypeError m' (Some e)), w0).
Proof. intro seed. do 3 eexists. cbv zeta. split; [reflexivity|]. split; [reflexivity|]. split; reflexivity. Qed.

(** the parse result 'one' is lost if a default factory raises: class C: x: int; y = Factory *)
Definition declF := rdecl 1 false false (Some true) SCheck
  [("x", (an TInt, NoDefault)); ("y", (an TInt, DefFactory (raise (mkexc LookupError "no default today"))))] [("z_parse", parse_one)] no_post.

(** C23 refuted: if the trivial reading gets as far as a default factory, and that raises, cls(v)
    raises its error, although v can be parsed and has no trivial reading. *)
Theorem c23_factory_refuted : forall {obj ty W} (R : Rt obj ty W) c n k a p vs k2 f g e w w1 w2 w3,
  c_unary c = true -> required_keys (c_fields c) = [k] -> ~ reserved k ->
  parse R n c a w = (Ok p, w1) -> filled R c [(k, a)] w1 vs w2 ->
  omitted c [(k, a)] = [k2] -> dget k2 (c_fields c) = Some f -> f_default f = DefFactory g -> g w2 = (Raise e, w3) ->
  construct R (S n) c (Some a) [] w = (Raise e, w3) /\ construct R (S n) c None [(k, a)] w1 = (Raise e, w3).
Proof. exact (@c23_factory_refuted_proof). Qed.
Print Assumptions c23_factory_refuted.

(** a default factory that raises *)
Example c23_factory_case :
  exists (seed : Z) (c : @cls dobj dty rstate) (a p : dobj) (w1 w2 : rstate) e,
    made rt0 c /\ c_unary c = true /\
    parse (demo_rt seed) 1 c a w0 = (Ok p, w1) /\ p <> DNone /\
    construct (demo_rt seed) 2 c (Some a) [] w0 = (Raise e, w2) /\
    (exists e1 w3, construct (demo_rt seed) 2 c None [("x", a)] w1 = (Raise e1, w3)).
Proof.
  pose (one := fun (v : dobj) (w : rstate) => (Ok (DRef (TRec 1) (List.length (rs_heap w))),
                                       RState (rs_lit w) (rs_heap w ++ [Inst (TRec 1) [("x", DInt 1)] SUnset]) (rs_log w))).
  pose (d := rdecl 1 false false (Some true) SCheck
    [("x", (an TInt, NoDefault)); ("y", (an TInt, DefFactory (raise (mkexc LookupError "no default today"))))] [("z_parse", one)] no_post).
  exists 0%Z, (made_of d), (DInt 7), (DRef (TRec 1) 0). do 3 eexists. split.
  { apply made_class with (d := d); [reflexivity| |intros b [E|[]]; discriminate]. repeat constructor; cbn; intuition discriminate. }
  split; [reflexivity|]. split; [reflexivity|]. split; [discriminate|]. split; [reflexivity|]. do 2 eexists. reflexivity.
Qed.

(** C24: parse calls every parser once, in order; its outcome is the only result, a
    ParseFailure if there is none and a TypeError if there are several. *)
Theorem c24_parse : forall {obj ty W} (R : Rt obj ty W) c n v w os w',
  parser_runs (fun p => run_parser R (construct R n c None) c p v) (c_parsers c) w os w' ->
  snd (parse R n c v w) = w' /\ parse_verdict os (fst (parse R n c v w)).
Proof. exact (@c24_parse_proof). Qed.
Print Assumptions c24_parse.

(** ... so that the order of parsers without side effects does not matter, if each of them
    succeeds or raises an Exception *)
Theorem c24_order : forall {obj ty W} (R : Rt obj ty W) mk c ps v w,
  (forall p, In p (c_parsers c) -> exists o, run_parser R mk c p v w = (o, w) /\ (forall e, o = Raise e -> is_Exception e = true)) ->
  Permutation (c_parsers c) ps ->
  parse_with R mk (with_parsers c ps) v w = parse_with R mk c v w.
Proof. exact (@c24_order_proof). Qed.
Print Assumptions c24_order.

(** the four parsers of U on 'one', on 2 and on the mapping {'x': 1} *)
Example c24_cases : forall seed, exists e1 e2 e3 e4,
  let R := demo_rt seed in
  parser_runs (fun p => run_parser R (construct R 1 U None) U p (DStr "one")) (c_parsers U) w0
    [Raise e1; Raise e2; Raise e3; Ok (DRef (TRec 1) 0)] (RState [] [Inst (TRec 1) [("x", DInt 1)] SUnset] []) /\
  fst (parse R 1 U (DStr "one") w0) = Ok (DRef (TRec 1) 0) /\
  fst (parse R 1 U (DInt 2) w0) = Raise (mkexc ParseFailure e4) /\
  fst (parse R 1 U (mapping [("x", DInt 1)]) w0) = Ok (DRef (TRec 1) 0).
Proof.
  intro seed. do 4 eexists. cbv zeta. split; [|repeat split].
  - eapply runs_cons; [reflexivity|intros e E; injection E as <-; reflexivity|].
    eapply runs_cons; [reflexivity|intros e E; injection E as <-; reflexivity|].
    eapply runs_cons; [reflexivity|intros e E; injection E as <-; reflexivity|].
    eapply runs_cons; [reflexivity|intros e E; discriminate|]. constructor.
Qed.

(** C25 does not hold if the class of the error refuses the message with another error than
    TypeError: then that error comes out, which neither names the field nor has the original
    error as its cause. *)
Theorem c25_constructor_refuted : forall {obj ty W} (R : Rt obj ty W) c n pre k v post f vs w w1 e w2 m,
  no_reserved (pre ++ (k, v) :: post) -> known c (pre ++ (k, v) :: post) ->
  filled R c pre w vs w1 -> dget k (c_fields c) = Some f ->
  call (rt_py R) (f_filler f) v w1 = (Raise e, w2) -> is_Exception e = true -> exc_ctor (exc_cls e) = CtorFails m ->
  exists e', construct R (S n) c None (pre ++ (k, v) :: post) w = (Raise e', w2) /\
    exc_cause e' = None /\ exc_cls e' = UserExc m CtorStr /\ ~ names_field k e e'.
Proof. exact (@c25_constructor_refuted_proof). Qed.
Print Assumptions c25_constructor_refuted.

(** C25, for all other errors: the first value that cannot be filled makes the constructor raise an error that
    names the field and has the original error as its cause and its class (or ValueError). *)
Theorem c25_names_field_partial : forall {obj ty W} (R : Rt obj ty W) c n pre k v post f vs w w1 e w2,
  no_reserved (pre ++ (k, v) :: post) -> known c (pre ++ (k, v) :: post) ->
  filled R c pre w vs w1 -> dget k (c_fields c) = Some f ->
  call (rt_py R) (f_filler f) v w1 = (Raise e, w2) -> is_Exception e = true -> (forall m, exc_ctor (exc_cls e) <> CtorFails m) ->
  exists e', construct R (S n) c None (pre ++ (k, v) :: post) w = (Raise e', w2) /\ names_field k e e'.
Proof. exact (@c25_names_field_partial_proof). Qed.
Print Assumptions c25_names_field_partial.

Example c25_case : forall seed, exists e, 
  construct (demo_rt seed) 1 XY None [("y", DInt 1); ("x", DStr "a")] w0 = (Raise (Exc TypeError "error filling filling x" (Some e)), w0).
Proof. intro seed. eexists. reflexivity. Qed.
(** a coercer that raises an error whose class takes a number *)
Definition decl_code := rdecl 3 false false (Some false) SCheck
  [("x", (AHint (HAnn (HTy TInt) [TCoerce (CGlobal (fun _ => Ok (fun _ => raise (mkexc (UserExc 1 (CtorFails 2)) "code"))))]) [], NoDefault))] [] no_post.
Example c25_constructor_case : forall seed,
  construct (demo_rt seed) 1 (made_of decl_code) None [("x", DStr "a")] w0 =
  (Raise (mkexc (UserExc 2 CtorStr) "raised by the constructor of the exception"), w0).
Proof. intro seed. reflexivity. Qed.

(** C26: an omitted field holds the very object declared as its default, or what a call of
    its factory made during this construction returned. *)
Theorem c26_defaults : forall {obj ty W} (R : Rt obj ty W) c n kw w x w' k f,
  made (rt_py R) c -> dict_ok kw -> no_reserved kw -> only_validates R c ->
  construct R n c None kw w = (Ok x, w') ->
  dget k (c_fields c) = Some f -> dget k kw = None ->
  exists i v, lookup R w' x = Some i /\ dget k (i_dict i) = Some v /\
    (forall d, f_default f = DefVal d -> v = d) /\
    (forall g, f_default f = DefFactory g -> exists wa wb, g wa = (Ok v, wb)) /\
    f_default f <> NoDefault.
Proof. exact (@c26_defaults_proof). Qed.
Print Assumptions c26_defaults.

(** ... and the defaults of fields that are passed explicitly play no role: with any other
    default, in particular any other factory, the constructor does exactly the same. *)
Theorem c26_unused_factories : forall {obj ty W} (R : Rt obj ty W) c n kw w k f d,
  made (rt_py R) c -> no_reserved kw -> In k (keys kw) ->
  dget k (c_fields c) = Some f -> f_default f <> NoDefault -> d <> NoDefault ->
  construct R n (with_default c k d) None kw w = construct R n c None kw w.
Proof. exact (@c26_unused_factories_proof). Qed.
Print Assumptions c26_unused_factories.

(** a factory that writes to the log and makes a fresh list: called for an omitted field,
    not called for a passed one *)
Definition declL := rdecl 2 false false None SHollow
  [("x", (an TInt, NoDefault)); ("l", (an TList, DefFactory (fun w => (Ok (dlist []), RState (rs_lit w) (rs_heap w) (rs_log w ++ [DStr "made"])))))] [] no_post.
Example c26_case : forall seed,
  rs_log (snd (construct (demo_rt seed) 1 (made_of declL) None [("x", DInt 1)] w0)) = [DStr "made"] /\
  rs_log (snd (construct (demo_rt seed) 1 (made_of declL) None [("x", DInt 1); ("l", dlist [])] w0)) = [].
Proof. intro seed. split; reflexivity. Qed.

(** C27 refuted: the default of an omitted field is stored without being filled, even if the
    filler would reject it. *)
Theorem c27_default_refuted : forall {obj ty W} (R : Rt obj ty W) c n kw w x w' k f d,
  made (rt_py R) c -> dict_ok kw -> no_reserved kw -> only_validates R c ->
  construct R n c None kw w = (Ok x, w') ->
  dget k (c_fields c) = Some f -> dget k kw = None -> f_default f = DefVal d ->
  (forall w, exists e w1, call (rt_py R) (f_filler f) d w = (Raise e, w1)) ->
  exists i, lookup R w' x = Some i /\ dget k (i_dict i) = Some d.
Proof. exact (@c27_default_refuted_proof). Qed.
Print Assumptions c27_default_refuted.

(** a string as the default of an int field *)
Example c27_default_case :
  exists (seed : Z) (c : @cls dobj dty rstate) x w' i f v,
    made rt0 c /\ construct (demo_rt seed) 1 c None [] w0 = (Ok x, w') /\ lookup (demo_rt seed) w' x = Some i /\
    dget "x" (i_dict i) = Some v /\ dget "x" (c_fields c) = Some f /\
    forall w, exists e w1, call rt0 (f_filler f) v w = (Raise e, w1).
Proof.
  pose (d := rdecl 0 false false None SCheck [("x", (an TInt, DefVal (DStr "not an int")))] [] no_post).
  exists 0%Z, (made_of d). do 5 eexists. split.
  { apply made_class with (d := d); [reflexivity| |intros b [E|[]]; discriminate]. repeat constructor; cbn; intuition discriminate. }
  split; [reflexivity|]. split; [reflexivity|]. split; [reflexivity|]. split; [reflexivity|].
  intro w. eexists; eexists. reflexivity.
Qed.

(** C27, what does hold: every passed value is filled *)
Theorem c27_passed_partial : forall {obj ty W} (R : Rt obj ty W) c n kw w x w' k v,
  made (rt_py R) c -> dict_ok kw -> no_reserved kw -> only_validates R c ->
  construct R n c None kw w = (Ok x, w') -> dget k kw = Some v ->
  exists i f y wa wb, lookup R w' x = Some i /\ dget k (c_fields c) = Some f /\ dget k (i_dict i) = Some y /\
    call (rt_py R) (f_filler f) v wa = (Ok y, wb).
Proof. exact (@c27_passed_partial_proof). Qed.
Print Assumptions c27_passed_partial.

(** C28: once all fields are filled, the constructor is post_new, run once on the new
    instance: it raises what post_new raises, and returns what post_new returns if that is
    true, and the instance otherwise. *)
Theorem c28_post_new : forall {obj ty W} (R : Rt obj ty W) c n kw w vs w1,
  no_reserved kw -> known c kw -> complete c kw -> filled R c kw w vs w1 ->
  (forall order, Permutation (omitted c kw) order -> exists ds w2, defaulted c order w1 ds w2) ->
  exists self w2, initialized R c kw w self w2 /\
    match c_post_new c self w2 with
    | (Raise e, w3) => construct R (S n) c None kw w = (Raise e, w3)
    | (Ok r, w3) => match truth R r w3 with
                    | (Ok true, w4) => construct R (S n) c None kw w = (Ok r, w4)
                    | (Ok false, w4) => construct R (S n) c None kw w = (Ok self, w4)
                    | (Raise e, w4) => construct R (S n) c None kw w = (Raise e, w4)
                    end
    end.
Proof. exact (@c28_post_new_proof). Qed.
Print Assumptions c28_post_new.

(** post_new that vetoes negative x, and replaces 0 by another object *)
Definition veto : dobj -> M rstate dobj :=
  fun self w => match lookup (demo_rt 0) w self with
                | Some i => match dget "x" (i_dict i) with
                            | Some (DInt z) => if Z.ltb z 0 then (Raise (mkexc ValueError "negative"), w)
                                               else if Z.eqb z 0 then (Ok (DStr "zero"), w) else (Ok DNone, w)
                            | _ => (Ok DNone, w)
                            end
                | None => (Ok DNone, w)
                end.
Example c28_cases :
  let C := made_of (rdecl 3 false false None SCheck [("x", (an TInt, NoDefault))] [] veto) in
  fst (construct (demo_rt 0) 1 C None [("x", DInt (-1))] w0) = Raise (mkexc ValueError "negative") /\
  fst (construct (demo_rt 0) 1 C None [("x", DInt 0)] w0) = Ok (DStr "zero") /\
  fst (construct (demo_rt 0) 1 C None [("x", DInt 1)] w0) = Ok (DRef (TRec 3) 0).
Proof. cbv zeta. repeat split. Qed.

(** C29 refuted: a field called cls can never be passed by keyword, *)
Theorem c29_cls_refuted : forall {obj ty W} (R : Rt obj ty W) c n pos kw w,
  In "cls" (keys kw) -> exists m, construct R n c pos kw w = (Raise (mkexc TypeError m), w).
Proof. exact (@c29_cls_refuted_proof). Qed.
Print Assumptions c29_cls_refuted.

(** ... nor can a field called self, if the result is an instance of the class, *)
Theorem c29_self_refuted : forall {obj ty W} (R : Rt obj ty W) c n kw w x w',
  In "self" (keys kw) -> construct R n c None kw w = (Ok x, w') -> isinstance (rt_py R) x (c_ty c) = false.
Proof. exact (@c29_self_refuted_proof). Qed.
Print Assumptions c29_self_refuted.

(** ... and one called arg is taken for a positional argument: next to other keywords that
    is a TypeError unless arg is the only required field. *)
Theorem c29_arg_refuted : forall {obj ty W} (R : Rt obj ty W) c n kw w,
  In "arg" (keys kw) -> dict_ok kw -> List.length kw <> 1 -> List.length (required_keys (c_fields c)) <> 1 ->
  exists m, construct R (S n) c None kw w = (Raise (mkexc TypeError m), w).
Proof. exact (@c29_arg_refuted_proof). Qed.
Print Assumptions c29_arg_refuted.

(** C29, what does hold: any other field passed by keyword is used *)
Theorem c29_keyword_partial : forall {obj ty W} (R : Rt obj ty W) c n kw w x w' k v,
  made (rt_py R) c -> dict_ok kw -> no_reserved kw -> only_validates R c ->
  construct R n c None kw w = (Ok x, w') -> dget k kw = Some v ->
  exists i f y wa wb, lookup R w' x = Some i /\ dget k (c_fields c) = Some f /\ dget k (i_dict i) = Some y /\
    call (rt_py R) (f_filler f) v wa = (Ok y, wb).
Proof. exact (@c29_keyword_partial_proof). Qed.
Print Assumptions c29_keyword_partial.

Example c29_cases : forall seed, exists m1 m2 m3,
  let C k := made_of (rdecl 4 false false None SCheck [(k, (an TInt, NoDefault)); ("y", (an TInt, NoDefault))] [] no_post) in
  fst (construct (demo_rt seed) 1 (C "cls") None [("cls", DInt 1); ("y", DInt 1)] w0) = Raise (mkexc TypeError m1) /\
  fst (construct (demo_rt seed) 1 (C "self") None [("self", DInt 1); ("y", DInt 1)] w0) = Raise (mkexc TypeError m2) /\
  fst (construct (demo_rt seed) 1 (C "arg") None [("arg", DInt 1); ("y", DInt 1)] w0) = Raise (mkexc TypeError m3) /\
  fst (construct (demo_rt seed) 1 (C "args") None [("args", DInt 1); ("y", DInt 1)] w0) = Ok (DRef (TRec 4) 0).
Proof. intro seed. do 3 eexists. repeat split. Qed.

(** C130: if records are true, a record returned by post_new replaces the new one, and None
    keeps it; *)
Theorem c130_true_partial : forall {obj ty W} (R : Rt obj ty W) c n kw w vs w1,
  no_reserved kw -> known c kw -> complete c kw -> filled R c kw w vs w1 ->
  (forall order, Permutation (omitted c kw) order -> exists ds w2, defaulted c order w1 ds w2) ->
  (forall w, truth R (o_none (rt_py R)) w = (Ok false, w)) ->
  exists self w2, initialized R c kw w self w2 /\
    forall r w3, c_post_new c self w2 = (Ok r, w3) ->
      (r = o_none (rt_py R) -> construct R (S n) c None kw w = (Ok self, w3)) /\
      (r <> o_none (rt_py R) -> truth R r w3 = (Ok true, w3) -> construct R (S n) c None kw w = (Ok r, w3)).
Proof. exact (@c130_true_partial_proof). Qed.
Print Assumptions c130_true_partial.

(** C130 refuted: no object that is false, e.g. a record with a __len__ or __bool__, replaces the
    new one. *)
Theorem c130_false_refuted : forall {obj ty W} (R : Rt obj ty W) c n kw w vs w1,
  no_reserved kw -> known c kw -> complete c kw -> filled R c kw w vs w1 ->
  (forall order, Permutation (omitted c kw) order -> exists ds w2, defaulted c order w1 ds w2) ->
  exists self w2, initialized R c kw w self w2 /\
    forall r w3 w4, c_post_new c self w2 = (Ok r, w3) -> truth R r w3 = (Ok false, w4) ->
      construct R (S n) c None kw w = (Ok self, w4).
Proof. exact (@c130_false_refuted_proof). Qed.
Print Assumptions c130_false_refuted.

(** post_new returns another record, which is false *)
Example c130_false_case :
  exists (c : @cls dobj dty rstate) (p self : dobj),
    made rt0 c /\ p <> DNone /\ type_of rt0 p = c_ty c /\ p <> self /\
    forall w, heap (demo_rt 0) w = [] -> exists w1 w2,
      initialized (demo_rt 0) c [("x", DInt 1)] w self w1 /\ c_post_new c self w1 = (Ok p, w2) /\
      construct (demo_rt 0) 1 c None [("x", DInt 1)] w = (Ok self, w2).
Proof.
  (* instances of class 9 are false, like records with a __bool__ or __len__ *)
  pose (other := fun (v : dobj) (w : rstate) => (Ok (DRef (TRec 9) (List.length (rs_heap w))),
                                       RState (rs_lit w) (rs_heap w ++ [Inst (TRec 9) [("x", DInt 1)] SUnset]) (rs_log w))).
  pose (d := rdecl 9 false false None SCheck [("x", (an TInt, NoDefault))] [] other).
  exists (made_of d), (DRef (TRec 9) 1), (DRef (TRec 9) 0). split.
  { apply made_class with (d := d); [reflexivity| |intros b [E|[]]; discriminate]. repeat constructor; cbn; intuition discriminate. }
  split; [discriminate|]. split; [reflexivity|]. split; [discriminate|].
  intros [lit hp lg] H. cbn in H. subst hp. eexists. eexists. split.
  { exists [("x", DInt 1)], (RState lit [] lg), [], [], (RState lit [] lg). split; [|repeat split; constructor].
    econstructor; [reflexivity|reflexivity|constructor]. }
  split; reflexivity.
Qed.

(** C31 refuted: a parse result that is false is lost whenever post_new rejects the trivial
    reading: cls(v) raises post_new's error. *)
Theorem c31_false_result_refuted : forall {obj ty W} (R : Rt obj ty W) c n k a p vs e w w1 w2,
  c_unary c = true -> required_keys (c_fields c) = [k] -> ~ reserved k ->
  parse R n c a w = (Ok p, w1) -> p <> o_none (rt_py R) -> (forall w, truth R p w = (Ok false, w)) ->
  filled R c [(k, a)] w1 vs w2 ->
  (forall order, Permutation (omitted c [(k, a)]) order -> exists ds w3, defaulted c order w2 ds w3) ->
  (forall self w3, exists w4, c_post_new c self w3 = (Raise e, w4)) -> is_Exception e = true ->
  exists w', construct R (S n) c (Some a) [] w = (Raise e, w') /\ construct R (S n) c None [(k, a)] w1 = (Raise e, w').
Proof. exact (@c31_false_result_refuted_proof). Qed.
Print Assumptions c31_false_result_refuted.

(** records that are false, and a post_new that rejects all of them *)
Example c31_false_result_case :
  exists (seed : Z) (c : @cls dobj dty rstate) a p w1 e w2 e1 w3,
    made rt0 c /\ c_unary c = true /\ required_keys (c_fields c) = ["x"] /\
    parse (demo_rt seed) 1 c a w0 = (Ok p, w1) /\ p <> DNone /\ type_of rt0 p = c_ty c /\
    construct (demo_rt seed) 2 c None [("x", a)] w1 = (Raise e1, w3) /\
    construct (demo_rt seed) 2 c (Some a) [] w0 = (Raise e, w2).
Proof.
  (* instances of class 9 are false, like records with a __bool__ or __len__ *)
  pose (one := fun (v : dobj) (w : rstate) => (Ok (DRef (TRec 9) (List.length (rs_heap w))),
                                       RState (rs_lit w) (rs_heap w ++ [Inst (TRec 9) [("x", DInt 1)] SUnset]) (rs_log w))).
  pose (d := rdecl 9 false false (Some true) SCheck [("x", (an TInt, NoDefault))] [("z_parse", one)] (fun _ => raise (mkexc ValueError "veto"))).
  exists 0%Z, (made_of d), (DInt 7), (DRef (TRec 9) 0). do 5 eexists. split.
  { apply made_class with (d := d); [reflexivity| |intros b [E|[]]; discriminate]. repeat constructor; cbn; intuition discriminate. }
  split; [reflexivity|]. split; [reflexivity|]. split; [reflexivity|]. split; [discriminate|]. split; [reflexivity|]. split; reflexivity.
Qed.

(** C31, what does hold: a true parse result is returned *)
Theorem c31_true_result_partial : forall {obj ty W} (R : Rt obj ty W) c n k a p e w w1 w2,
  made (rt_py R) c -> c_unary c = true -> required_keys (c_fields c) = [k] -> ~ reserved k ->
  parse R n c a w = (Ok p, w1) -> p <> o_none (rt_py R) -> (forall w, truth R p w = (Ok true, w)) -> safe_defaults c ->
  construct R (S n) c None [(k, a)] w1 = (Raise e, w2) -> is_Exception e = true ->
  construct R (S n) c (Some a) [] w = (Ok p, w2).
Proof. exact (@c31_true_result_partial_proof). Qed.
Print Assumptions c31_true_result_partial.

(** C30 refuted: if all fields have defaults, any object at all can be read as an instance
    without attributes.  Whenever the class can be constructed without arguments, a mapping that
    from_mapping accepts is ambiguous. *)
Theorem c30_all_optional_refuted : forall {obj ty W} (R : Rt obj ty W) c n m x0 x w w1 w',
  made (rt_py R) c -> c_unary c = true -> required_keys (c_fields c) = [] ->
  c_parsers c = [PFromInstance; PFromJson; PFromMapping] ->
  isinstance (rt_py R) m (c_ty c) = false ->
  (forall k w, In k (keys (c_fields c)) -> exists e, getattr R m k w = (Raise (mkexc AttributeError e), w)) ->
  (forall w, exists e, json_loads R m w = (Raise e, w) /\ is_Exception e = true) ->
  construct R n c None [] w = (Ok x0, w1) ->
  from_mapping R n c sel_empty [m] [] w1 = (Ok x, w') ->
  exists e, construct R (S n) c (Some m) [] w = (Raise (mkexc TypeError e), w').
Proof. exact (@c30_all_optional_refuted_proof). Qed.
Print Assumptions c30_all_optional_refuted.

(** two int fields with default 0 *)
Example c30_all_optional_case :
  exists (seed : Z) (c : @cls dobj dty rstate) m x w1 e w2,
    made rt0 c /\ c_unary c = true /\ c_parsers c = [PFromInstance; PFromJson; PFromMapping] /\
    (forall k w, In k (keys (c_fields c)) -> exists e, getattr (demo_rt seed) m k w = (Raise (mkexc AttributeError e), w)) /\
    from_mapping (demo_rt seed) 1 c sel_empty [m] [] w0 = (Ok x, w1) /\
    construct (demo_rt seed) 2 c (Some m) [] w0 = (Raise (mkexc TypeError e), w2).
Proof.
  pose (d := rdecl 0 false false (Some true) SCheck [("x", (an TInt, DefVal (DInt 0))); ("y", (an TInt, DefVal (DInt 0)))] [] no_post).
  exists 0%Z, (made_of d), (mapping [("x", DInt 1)]). do 4 eexists. split.
  { apply made_class with (d := d); [reflexivity| |intros b [E|[]]; discriminate]. repeat constructor; cbn; intuition discriminate. }
  split; [reflexivity|]. split; [reflexivity|]. split; [|split; reflexivity].
  intros k w _. eexists. reflexivity.
Qed.

(** C30, what does hold: classes with two or more required fields.  [m] is not an instance
    of the class, has no attribute called like a field and is not JSON text. *)
Theorem c30_mapping_partial : forall {obj ty W} (R : Rt obj ty W) c n m x w w',
  c_unary c = true -> 2 <= List.length (required_keys (c_fields c)) ->
  c_parsers c = [PFromInstance; PFromJson; PFromMapping] ->
  made (rt_py R) c ->
  isinstance (rt_py R) m (c_ty c) = false ->
  (forall k w, In k (keys (c_fields c)) -> exists e, getattr R m k w = (Raise (mkexc AttributeError e), w)) ->
  (forall w, exists e, json_loads R m w = (Raise e, w) /\ is_Exception e = true) ->
  from_mapping R n c sel_empty [m] [] w = (Ok x, w') -> x <> o_none (rt_py R) ->
  construct R (S n) c (Some m) [] w = (Ok x, w').
Proof. exact (@c30_mapping_partial_proof). Qed.
Print Assumptions c30_mapping_partial.

Definition declM := rdecl 0 false false (Some true) SCheck [("x", (an TInt, NoDefault)); ("y", (an TInt, NoDefault))] [] no_post.
Example c30_case : forall seed,
  construct (demo_rt seed) 2 (made_of declM) (Some (mapping [("x", DInt 1); ("y", DInt 2)])) [] w0 =
  (Ok (DRef (TRec 0) 0), RState [] [Inst (TRec 0) [("x", DInt 1); ("y", DInt 2)] SUnset] []).
Proof. intro seed. reflexivity. Qed.
