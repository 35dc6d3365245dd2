(** Props_Filler.v -- property theorems: fillers (records/fillers)
    Each theorem is closed by the lemma of the same statement in Filler_main.v; the examples
    show that concrete, non-trivial cases meet the hypotheses. *)

From Verif Require Import Base Py Filler Spec_Filler Demo.
From Verif Require Filler_proofs Filler_sound Filler_inv Filler_shape Filler_eqs Filler_leaf Filler_seal Filler_decl Filler_kind.
Open Scope string_scope.
Open Scope list_scope.

From Verif Require Import Filler_main.

(** C01: a hollow field without validators stores the argument itself, never fails and
    changes nothing. *)
Theorem c01_hollow : forall {obj ty W} (P : Py obj ty W) dflt h ops f,
  make_filler P dflt h ops = Ok f ->
  hollow_hint dflt (sub_ops ops) (own_ops ops) [] h = true ->
  unvalidated (sub_ops ops) (own_ops ops) [] h = true ->
  forall x w, call P f x w = (Ok x, w).
Proof. exact (@c01_hollow_proof). Qed.
Print Assumptions c01_hollow.

Example c01_union : exists f,
  make_filler demo0 SHollow (HUnion [HTy TInt; HIter RkPlain TList (HTy TStr)]) [] = Ok f /\
  hollow_hint (obj:=dobj) (ty:=dty) (W:=demo_state) SHollow (sub_ops []) (own_ops []) [] (HUnion [HTy TInt; HIter RkPlain TList (HTy TStr)]) = true /\
  call demo0 f DNone st0 = (Ok DNone, st0).
Proof. eexists. split; [reflexivity|]. split; reflexivity. Qed.

(** C02: with validators that only assert and containers whose constructors keep their
    promise, whatever a field's filler returns is of the declared type, to any depth. *)
Theorem c02_type_soundness : forall {obj ty W} (P : Py obj ty W) dflt h ops f,
  honest_containers P ->
  make_filler P dflt h ops = Ok f ->
  Forall asserting (hint_tokens h ++ map snd ops) ->
  forall x w y w', call P f x w = (Ok y, w') ->
  conforms P dflt (sub_ops ops) (own_ops ops) [] h y.
Proof. exact (@c02_type_soundness_proof). Qed.
Print Assumptions c02_type_soundness.

Lemma demo_honest : forall W getg setg, honest_containers (@demo W getg setg).
Proof.
  intros. split; intros rk v es w r w' E; cbn in E; destruct v; cbn in E; try discriminate; injection E as <- <-;
    cbn; (split; [reflexivity|]); (split; [reflexivity|]); try (split; [|intros _]); try rewrite ?unchain_chain, ?pairs_unpairs; try reflexivity.
  - intros l E. injection E as <-. apply incl_refl.
  - intros l E. injection E as <-. apply incl_refl.
  - intros l E. injection E as <-. split; apply incl_refl.
Qed.

(** a str of digits to int *)
Definition parse_int : dobj -> M demo_state dobj :=
  fun x w => match x with
             | DStr "5" => (Ok (DInt 5), w)
             | DStr "7" => (Ok (DInt 7), w)
             | _ => (Raise (mkexc ValueError ""), w)
             end.
Definition coerce_with (c : dobj -> M demo_state dobj) : @token dobj dty demo_state := TCoerce (CGlobal (fun _ => Ok c)).
Definition validate_with (c : dobj -> M demo_state dobj) : @token dobj dty demo_state := TValid (VGlobal (fun _ => Ok c)).

(** List[Union[Annotated[int, check, coercer, positive], None]] under check *)
Definition demo_hint : @hint dobj dty demo_state :=
  HAnn (HIter RkPlain TList (HUnion [HAnn (HTy TInt) [coerce_with parse_int; validate_with positive]; HNone])) [TStyle SCheck].

Example c02_list : exists f,
  make_filler demo0 SCheck demo_hint [] = Ok f /\
  Forall asserting (hint_tokens demo_hint ++ map snd (@nil (option nat * @token dobj dty demo_state))) /\
  call demo0 f (dlist [DStr "5"; DNone; DInt 3]) st0 = (Ok (dlist [DInt 5; DNone; DInt 3]), st0) /\
  (exists e, call demo0 f (dlist [DStr "5"; DStr "x"]) st0 = (Raise e, st0)).
Proof.
  eexists. split; [reflexivity|]. split; [|split; [reflexivity|eexists; reflexivity]].
  repeat constructor. intros o f E x w y w' C. injection E as <-. unfold positive in C.
  destruct (dint x); [|discriminate]. destruct (0 <? z)%Z; [|discriminate]. congruence.
Qed.

(** C03 does not hold: whatever a coercer of a checked None field makes of an argument that is
    not None is stored.  (The same happens for Ellipsis fields.) *)
Theorem c03_none_refuted : forall {obj ty W} (P : Py obj ty W) dflt s c f x w y w',
  s = SCheck \/ s = SStrict ->
  make_filler P dflt (HAnn HNone [TStyle s; TCoerce (CGlobal (fun _ => Ok c))]) [] = Ok f ->
  x <> o_none P -> c x w = (Ok y, w') -> call P f x w = (Ok y, w').
Proof. exact (@c03_none_refuted_proof). Qed.
Print Assumptions c03_none_refuted.

(** a coercer that returns 5 *)
Example c03_none_case :
  exists obj ty W (P : Py obj ty W) dflt toks f x w y w',
    eff_style dflt toks = SCheck /\
    make_filler P dflt (HAnn HNone toks) [] = Ok f /\
    call P f x w = (Ok y, w') /\ y <> o_none P.
Proof.
  exists dobj, dty, demo_state, demo0, SHollow, [TStyle SCheck; TCoerce (CGlobal (fun _ => Ok (fun _ => ret (DInt 5))))].
  eexists. exists (DInt 1), st0, (DInt 5), st0. split; [reflexivity|]. split; [reflexivity|]. split; [reflexivity|discriminate].
Qed.

(** the same for callable fields *)
Theorem c03_callable_refuted : forall {obj ty W} (P : Py obj ty W) dflt s c f x w y w',
  s = SCheck \/ s = SStrict ->
  make_filler P dflt (HAnn HCallable [TStyle s; TCoerce (CGlobal (fun _ => Ok c))]) [] = Ok f ->
  callable P x = false -> c x w = (Ok y, w') -> call P f x w = (Ok y, w').
Proof. exact (@c03_callable_refuted_proof). Qed.
Print Assumptions c03_callable_refuted.

(** a coercer that returns 5 *)
Example c03_callable_case :
  exists obj ty W (P : Py obj ty W) dflt toks f x w y w',
    eff_style dflt toks = SStrict /\
    make_filler P dflt (HAnn HCallable toks) [] = Ok f /\
    call P f x w = (Ok y, w') /\ callable P y = false.
Proof.
  exists dobj, dty, demo_state, demo0, SHollow, [TStyle SStrict; TCoerce (CGlobal (fun _ => Ok (fun _ => ret (DInt 5))))].
  eexists. exists (DInt 1), st0, (DInt 5), st0. split; [reflexivity|]. split; [reflexivity|]. split; reflexivity.
Qed.

(** C03, what does hold: without coercers (and with validators that only assert) such
    fields store None, Ellipsis and callables only.  Missing: fields with coercers. *)
Theorem c03_partial : forall {obj ty W} (P : Py obj ty W) dflt toks ops,
  honest_containers P ->
  Forall asserting (toks ++ map snd ops) ->
  (eff_style dflt (own_ops ops ++ toks) = SCheck \/ eff_style dflt (own_ops ops ++ toks) = SStrict) ->
  has_coercer (own_ops ops ++ toks) = false ->
  (forall f x w y w', make_filler P dflt (HAnn HNone toks) ops = Ok f -> call P f x w = (Ok y, w') -> y = o_none P) /\
  (forall f x w y w', t_ellipsis P <> t_bool P -> t_ellipsis P <> t_none P ->
     make_filler P dflt (HAnn (HTy (t_ellipsis P)) toks) ops = Ok f -> call P f x w = (Ok y, w') -> y = o_ellipsis P) /\
  (forall f x w y w', make_filler P dflt (HAnn HCallable toks) ops = Ok f -> call P f x w = (Ok y, w') -> callable P y = true).
Proof. exact (@c03_partial_proof). Qed.
Print Assumptions c03_partial.

Example c03_none : exists f,
  make_filler demo0 SHollow (HAnn HNone [TStyle SCheck]) [] = Ok f /\
  call demo0 f DNone st0 = (Ok DNone, st0) /\ exists e, call demo0 f (DInt 0) st0 = (Raise e, st0).
Proof. eexists. split; [reflexivity|]. split; [reflexivity|eexists; reflexivity]. Qed.

(** C04: an argument that is of the declared class already is not coerced: only the
    validators declared for the field run, in order; without any, the very object is
    returned and nothing happens. *)
Theorem c04_matching_not_coerced : forall {obj ty W} (P : Py obj ty W) dflt t toks ops f,
  t <> t_none P -> t <> t_ellipsis P ->
  make_filler P dflt (HAnn (HTy t) toks) ops = Ok f ->
  let s := eff_style dflt (own_ops ops ++ toks) in
  s = SCheck \/ s = SStrict ->
  exists vs, declared_validators (OTy t) (own_ops ops ++ toks) vs /\
    forall x, class_ok P s t x ->
      forall w, call P f x w = in_order vs x w /\
        (existsb is_validation (own_ops ops ++ toks) = false -> call P f x w = (Ok x, w)).
Proof. exact (@c04_matching_not_coerced_proof). Qed.
Print Assumptions c04_matching_not_coerced.

(** C04 for None and callable annotations, which have fillers of their own *)
Theorem c04_matching_not_coerced_special : forall {obj ty W} (P : Py obj ty W) dflt toks ops,
  let s := eff_style dflt (own_ops ops ++ toks) in
  s = SCheck \/ s = SStrict ->
  (forall f, make_filler P dflt (HAnn HNone toks) ops = Ok f ->
     exists vs, declared_validators (OTy (t_none P)) (own_ops ops ++ toks) vs /\
       forall w, call P f (o_none P) w = in_order vs (o_none P) w) /\
  (forall f, make_filler P dflt (HAnn HCallable toks) ops = Ok f ->
     exists vs, declared_validators OCallable (own_ops ops ++ toks) vs /\
       forall x w, callable P x = true -> call P f x w = in_order vs x w).
Proof. exact (@c04_matching_not_coerced_special_proof). Qed.
Print Assumptions c04_matching_not_coerced_special.

(** an int field with a coercer that would turn everything into 5, and a validator *)
Example c04_int : exists f,
  make_filler demo0 SCheck (HAnn (HTy TInt) [coerce_with (fun _ => ret (DInt 5)); validate_with logging]) [] = Ok f /\
  call demo0 f (DSub 3) st0 = (Ok (DSub 3), ([], [DSub 3])) /\
  call demo0 f DNone st0 = (Ok (DInt 5), ([], [DInt 5])).
Proof. eexists. split; [reflexivity|]. split; reflexivity. Qed.

(** C05: an argument that is not of the declared class goes through the declared coercers
    in order.  The first that returns an object of the declared class decides: the
    validators run on what it returned and no later coercer is called.  If the last one
    fails, its error is the error; an exception that is not an Exception is never
    caught; without coercers a TypeError is raised. *)
Theorem c05_first_coercer_wins : forall {obj ty W} (P : Py obj ty W) dflt t toks ops f,
  t <> t_none P -> t <> t_ellipsis P ->
  make_filler P dflt (HAnn (HTy t) toks) ops = Ok f ->
  let s := eff_style dflt (own_ops ops ++ toks) in
  s = SCheck \/ s = SStrict ->
  exists cs vs,
    declared_coercers P (OTy t) (own_ops ops ++ toks) cs /\
    declared_validators (OTy t) (own_ops ops ++ toks) vs /\
    forall x w, ~ class_ok P s t x ->
      (cs = [] -> exists e, exc_cls e = TypeError /\ call P f x w = (Raise e, w)) /\
      (forall cs1 c cs2 y w1, cs = cs1 ++ c :: cs2 -> tried (class_ok P s t) cs1 x w y w1 ->
         (forall z w2, c y w1 = (Ok z, w2) -> class_ok P s t z -> call P f x w = in_order vs z w2) /\
         (forall e w2, c y w1 = (Raise e, w2) -> is_Exception e = false -> call P f x w = (Raise e, w2)) /\
         (forall e w2, cs2 = [] -> c y w1 = (Raise e, w2) -> call P f x w = (Raise e, w2)) /\
         (forall z w2, cs2 = [] -> c y w1 = (Ok z, w2) -> ~ class_ok P s t z ->
            exists e, exc_cls e = TypeError /\ call P f x w = (Raise e, w2))).
Proof. exact (@c05_first_coercer_wins_proof). Qed.
Print Assumptions c05_first_coercer_wins.

(** C05: the cases above are all there are *)
Theorem c05_cases : forall {obj ty W} (P : Py obj ty W) s t (cs : list (obj -> M W obj)) x w,
  s = SCheck \/ s = SStrict -> cs <> [] ->
  exists cs1 c cs2 y w1, cs = cs1 ++ c :: cs2 /\ tried (class_ok P s t) cs1 x w y w1 /\
    ((exists z w2, c y w1 = (Ok z, w2) /\ class_ok P s t z) \/
     (exists e w2, c y w1 = (Raise e, w2) /\ is_Exception e = false) \/
     (cs2 = [] /\ exists e w2, c y w1 = (Raise e, w2)) \/
     (cs2 = [] /\ exists z w2, c y w1 = (Ok z, w2) /\ ~ class_ok P s t z)).
Proof. exact (@c05_cases_proof). Qed.
Print Assumptions c05_cases.

(** the first coercer raises, the second succeeds, the third is not called *)
Example c05_second : exists f,
  make_filler demo0 SCheck (HAnn (HTy TInt) [coerce_with parse_int; coerce_with (fun x => let* y := logging x in ret (DInt 8));
                                             coerce_with (fun x => let* y := logging x in ret (DInt 9))]) [] = Ok f /\
  call demo0 f DNone st0 = (Ok (DInt 8), ([], [DNone])) /\
  call demo0 f (DStr "7") st0 = (Ok (DInt 7), st0).
Proof. eexists. split; [reflexivity|]. split; reflexivity. Qed.

(** C06 does not hold: whenever a coercer returned an object of the wrong type, the next coercer
    is given that object; what it would have made of the original argument does not matter. *)
Theorem c06_refuted : forall {obj ty W} (P : Py obj ty W) dflt s t c1 c2 f x w y w1 z w2,
  t <> t_none P -> t <> t_ellipsis P -> s = SCheck \/ s = SStrict ->
  make_filler P dflt (HAnn (HTy t) [TStyle s; TCoerce (CGlobal (fun _ => Ok c1)); TCoerce (CGlobal (fun _ => Ok c2))]) [] = Ok f ->
  ~ class_ok P s t x -> c1 x w = (Ok y, w1) ->
  ~ class_ok P s t y -> c2 y w1 = (Ok z, w2) -> class_ok P s t z ->
  call P f x w = (Ok z, w2).
Proof. exact (@c06_refuted_proof). Qed.
Print Assumptions c06_refuted.

(** the first coercer turns None into a str (wrong), and the second one, which would have rejected None, accepts that str *)
Example c06_case :
  exists obj ty W (P : Py obj ty W) t c1 c2 f x w z w',
    make_filler P SCheck (HAnn (HTy t) [TCoerce (CGlobal (fun _ => Ok c1)); TCoerce (CGlobal (fun _ => Ok c2))]) [] = Ok f /\
    (forall w, exists e w', c2 x w = (Raise e, w')) /\
    (forall y w w', c1 x w = (Ok y, w') -> ~ class_ok P SCheck t y) /\
    call P f x w = (Ok z, w').
Proof.
  exists dobj, dty, demo_state, demo0, TInt, (fun _ => ret (DStr "5")),
    (fun x w => match x with DStr "5" => (Ok (DInt 5), w) | _ => (Raise (mkexc ValueError ""), w) end).
  eexists. exists DNone, st0, (DInt 5), st0. split; [reflexivity|]. split; [intros; repeat eexists|].
  split; [|reflexivity]. intros y w w' E. injection E as <- <-. cbn. intros [|]; discriminate.
Qed.

(** C06, what does hold: if the coercers of the field, when they return, return objects of
    the declared class, each of them is offered the original argument.  Missing: coercers
    that return objects of another class. *)
Theorem c06_partial : forall {obj ty W} (P : Py obj ty W) dflt t toks ops f,
  t <> t_none P -> t <> t_ellipsis P ->
  make_filler P dflt (HAnn (HTy t) toks) ops = Ok f ->
  let s := eff_style dflt (own_ops ops ++ toks) in
  s = SCheck \/ s = SStrict ->
  exists cs vs,
    declared_coercers P (OTy t) (own_ops ops ++ toks) cs /\
    declared_validators (OTy t) (own_ops ops ++ toks) vs /\
    forall x, ~ class_ok P s t x ->
      (forall c, In c cs -> forall w z w', c x w = (Ok z, w') -> class_ok P s t z) ->
      forall w cs1 c cs2 w1, cs = cs1 ++ c :: cs2 -> offered (class_ok P s t) x cs1 w w1 ->
         (forall z w2, c x w1 = (Ok z, w2) -> call P f x w = in_order vs z w2) /\
         (forall e w2, cs2 = [] -> c x w1 = (Raise e, w2) -> call P f x w = (Raise e, w2)).
Proof. exact (@c06_partial_proof). Qed.
Print Assumptions c06_partial.

(** C07: the validators declared for a field that is not a container run after type
    checking and coercion (which are those of the same declaration without validators),
    once each, in order -- those of pre_bind before those of the annotation -- each on
    the output of the previous one. *)
Theorem c07_validators_in_order : forall {obj ty W} (P : Py obj ty W) dflt h o toks ops f,
  match h with
  | HTy t | HBare t => o = OTy t
  | HNone => o = OTy (t_none P)
  | HCallable => o = OCallable
  | HAny => o = OTy (t_object P)
  | _ => False
  end ->
  make_filler P dflt (HAnn h toks) ops = Ok f ->
  exists f0 vs,
    make_filler P dflt (HAnn h (without_validators toks)) (own_only (without_validators (own_ops ops))) = Ok f0 /\
    declared_validators o (own_ops ops ++ toks) vs /\
    forall x w, call P f x w = (let* z := call P f0 x in in_order vs z) w.
Proof. exact (@c07_validators_in_order_proof). Qed.
Print Assumptions c07_validators_in_order.

Example c07_order : exists f,
  make_filler demo0 SCheck (HAnn (HTy TInt) [validate_with logging; validate_with (fun x => ret (DInt 2))])
     [(None, validate_with (fun x => ret (DInt 1)))] = Ok f /\
  call demo0 f (DInt 0) st0 = (Ok (DInt 2), ([], [DInt 1])).
Proof. eexists. split; reflexivity. Qed.

(** C09: a Union field, in terms of the fillers of its members (each built from its own
    annotation and all the tokens of the field): every member is tried once, in order,
    and the verdict over their outcomes is the outcome. *)
Theorem c09_union : forall {obj ty W} (P : Py obj ty W) dflt hs toks ops f,
  hs <> [] ->
  make_filler P dflt (HAnn (HUnion hs) toks) ops = Ok f ->
  exists gs,
    List.length gs = List.length hs /\
    (forall n h, nth_error hs n = Some h ->
       exists g, nth_error gs n = Some g /\
         make_filler P dflt h (own_only (sub_ops ops n ++ toks ++ own_ops ops)) = Ok g) /\
    forall x w, call P f x w =
      if all_i (fun n h => hollow_hint dflt no_sub_tokens (sub_ops ops n ++ toks ++ own_ops ops) [] h) 0 hs
      then (Ok x, w)
      else (let* os := attempts (map (fill P) gs) x in lift (verdict P os)) w.
Proof. exact (@c09_union_proof). Qed.
Print Assumptions c09_union.

(** C09: what the verdict says.  It is a value that some member produced, of the best match
    kind, and every member of that kind produced that very object; it is the ambiguity
    ValueError exactly if two members of the best kind produced different objects; and
    it is the last member's error exactly if no member succeeded. *)
Theorem c09_verdict : forall {obj ty W} (P : Py obj ty W) (os : list (outcome (obj * tpk))),
  let best v p := In (Ok (v, p)) os /\ forall v' p', In (Ok (v', p')) os -> tpk_rank p <= tpk_rank p' in
  (forall v, verdict P os = Ok v <->
     exists p, best v p /\ forall v' p', best v' p' -> v' = v) /\
  ((exists v p v' p', best v p /\ best v' p' /\ v <> v') ->
     verdict P os = Raise (mkexc ValueError "multiple sub-fillers matched")) /\
  (forall os' e, os = os' ++ [Raise e] -> (forall v p, ~ In (Ok (v, p)) os) -> verdict P os = Raise e).
Proof. exact (@c09_verdict_proof). Qed.
Print Assumptions c09_verdict.

(** C08: which value a Union field stores does not depend on the order of the members:
    reordering them (together with the tokens applied to each) preserves every
    successful fill, provided what each member makes of the argument does not itself
    depend on the program's state. *)
Theorem c08_order_irrelevant : forall {obj ty W} (P : Py obj ty W) dflt toks hs hs' ops ops' f f' x,
  hs <> [] ->
  make_filler P dflt (HAnn (HUnion hs) toks) ops = Ok f ->
  make_filler P dflt (HAnn (HUnion hs') toks) ops' = Ok f' ->
  Permutation (member_decls ops 0 hs) (member_decls ops' 0 hs') ->
  own_ops ops = own_ops ops' ->
  (forall h ts g, In (h, ts) (member_decls ops 0 hs) ->
     make_filler P dflt h (own_only (ts ++ toks ++ own_ops ops)) = Ok g ->
     exists o, forall w, fst (fill P g x w) = o) ->
  forall w w' v w1, call P f x w = (Ok v, w1) -> exists w1', call P f' x w' = (Ok v, w1').
Proof. exact (@c08_order_irrelevant_proof). Qed.
Print Assumptions c08_order_irrelevant.

(** C08: the match kinds by which the members compete.  Whatever a member makes of an
    argument, its kind says how the argument matched the annotation: exactly, as an instance
    of a subclass, only through a coercer, or unchecked, and this is also their order. *)
Theorem c08_match_kinds : forall {obj ty W} (P : Py obj ty W),
  (forall dflt h ops g x w v p w' q,
     make_filler P dflt h ops = Ok g -> fill P g x w = (Ok (v, p), w') ->
     match_kind P dflt (own_ops ops) [] h x = Some q -> p = q) /\
  tpk_rank PStrict < tpk_rank PNoCoerce < tpk_rank PCoerce /\ tpk_rank PCoerce < tpk_rank PHollow.
Proof. exact (@c08_match_kinds_proof). Qed.
Print Assumptions c08_match_kinds.

(** Union[int, Annotated[str, coercer]] on an int, and on something only the coercer takes *)
Example c08_union : exists f f',
  make_filler demo0 SCheck (HAnn (HUnion [HTy TInt; HAnn (HTy TStr) [coerce_with (fun _ => ret (DStr "s"))]]) []) [] = Ok f /\
  make_filler demo0 SCheck (HAnn (HUnion [HAnn (HTy TStr) [coerce_with (fun _ => ret (DStr "s"))]; HTy TInt]) []) [] = Ok f' /\
  call demo0 f (DSub 4) st0 = (Ok (DSub 4), st0) /\ call demo0 f' (DSub 4) st0 = (Ok (DSub 4), st0) /\
  call demo0 f DNone st0 = (Ok (DStr "s"), st0) /\ call demo0 f' DNone st0 = (Ok (DStr "s"), st0).
Proof. eexists. eexists. repeat split. Qed.

(** ambiguity: two coercers of the same rank *)
Example c09_ambiguous : exists f,
  make_filler demo0 SCheck (HAnn (HUnion [HAnn (HTy TInt) [coerce_with (fun _ => ret (DInt 1))]; HAnn (HTy TStr) [coerce_with (fun _ => ret (DStr "s"))]]) []) [] = Ok f /\
  call demo0 f DNone st0 = (Raise (mkexc ValueError "multiple sub-fillers matched"), st0).
Proof. eexists. split; reflexivity. Qed.

(** C10: a List/Set/Sequence/... field first fills the container as a field of its class
    with the same tokens would, and then, unless the elements are hollow, fills every
    element with the element annotation. *)
Theorem c10_elements : forall {obj ty W} (P : Py obj ty W) dflt rk t h toks ops f,
  plain_class P t ->
  make_filler P dflt (HAnn (HIter rk t h) toks) ops = Ok f ->
  exists f0 g,
    make_filler P dflt (HAnn (HTy t) toks) (own_only (own_ops ops)) = Ok f0 /\
    make_filler P dflt h (own_only (sub_ops ops 0)) = Ok g /\
    forall x w, call P f x w =
      (let* z := call P f0 x in
       if hollow_hint dflt no_sub_tokens (sub_ops ops 0) [] h then ret z
       else fill_elements P rk (call P g) z) w.
Proof. exact (@c10_elements_proof). Qed.
Print Assumptions c10_elements.

(** C10 for Tuple[T, ...] *)
Theorem c10_elements_tuple : forall {obj ty W} (P : Py obj ty W) dflt h toks ops f,
  plain_class P (t_tuple P) ->
  make_filler P dflt (HAnn (HTupleV h) toks) ops = Ok f ->
  exists f0 g,
    make_filler P dflt (HAnn (HTy (t_tuple P)) toks) (own_only (own_ops ops)) = Ok f0 /\
    make_filler P dflt h (own_only (sub_ops ops 0)) = Ok g /\
    forall x w, call P f x w =
      (let* z := call P f0 x in
       if hollow_hint dflt no_sub_tokens (sub_ops ops 0) [] h then ret z
       else fill_elements P RkPlain (call P g) z) w.
Proof. exact (@c10_elements_tuple_proof). Qed.
Print Assumptions c10_elements_tuple.

(** C11: a Tuple[T1, ..., Tn] field fills the tuple as a field of class tuple would, then
    (unless hollow) checks that there are n elements and fills the i-th with Ti; any other
    length is a ValueError. *)
Theorem c11_fixed_tuple : forall {obj ty W} (P : Py obj ty W) dflt hs toks ops f,
  plain_class P (t_tuple P) ->
  make_filler P dflt (HAnn (HTupleN hs) toks) ops = Ok f ->
  exists f0 gs,
    make_filler P dflt (HAnn (HTy (t_tuple P)) toks) (own_only (own_ops ops)) = Ok f0 /\
    List.length gs = List.length hs /\
    (forall n h, nth_error hs n = Some h ->
       exists g, nth_error gs n = Some g /\ make_filler P dflt h (own_only (sub_ops ops n)) = Ok g) /\
    forall x w, call P f x w =
      (let* z := call P f0 x in
       if all_i (fun n h => hollow_hint dflt no_sub_tokens (sub_ops ops n) [] h) 0 hs
       then if style_eqb (eff_style dflt (own_ops ops ++ toks)) SHollow then ret z else check_length P (List.length hs) z
       else fill_positions P (map (call P) gs) z) w.
Proof. exact (@c11_fixed_tuple_proof). Qed.
Print Assumptions c11_fixed_tuple.

(** C12: a Dict/Mapping field fills the mapping as a field of its class would and then,
    unless keys and values are hollow, every key and every value. *)
Theorem c12_mapping : forall {obj ty W} (P : Py obj ty W) dflt rk t hk hv toks ops f,
  plain_class P t ->
  make_filler P dflt (HAnn (HMap rk t hk hv) toks) ops = Ok f ->
  exists f0 gk gv,
    make_filler P dflt (HAnn (HTy t) toks) (own_only (own_ops ops)) = Ok f0 /\
    make_filler P dflt hk (own_only (sub_ops ops 0)) = Ok gk /\
    make_filler P dflt hv (own_only (sub_ops ops 1)) = Ok gv /\
    forall x w, call P f x w =
      (let* z := call P f0 x in
       if hollow_hint dflt no_sub_tokens (sub_ops ops 0) [] hk && hollow_hint dflt no_sub_tokens (sub_ops ops 1) [] hv then ret z
       else fill_items P rk (call P gk) (call P gv) z) w.
Proof. exact (@c12_mapping_proof). Qed.
Print Assumptions c12_mapping.

Example c10_plain : plain_class demo0 TList /\ plain_class demo0 (t_tuple demo0) /\ plain_class demo0 TDict.
Proof. repeat split; discriminate. Qed.

Example c11_pair : exists f,
  make_filler demo0 SCheck (HAnn (HTupleN [HTy TInt; HAnn (HTy TInt) [coerce_with parse_int]]) []) [] = Ok f /\
  call demo0 f (dtuple [DInt 1; DStr "7"]) st0 = (Ok (dtuple [DInt 1; DInt 7]), st0) /\
  exists e, call demo0 f (dtuple [DInt 1]) st0 = (Raise e, st0) /\ exc_cls e = ValueError.
Proof. eexists. split; [reflexivity|]. split; [reflexivity|]. eexists. split; reflexivity. Qed.

Example c12_dict : exists f,
  make_filler demo0 SCheck (HAnn (HMap RkPlain TDict (HTy TStr) (HAnn (HTy TInt) [coerce_with parse_int])) []) [] = Ok f /\
  call demo0 f (ddict [(DStr "a", DStr "7"); (DStr "b", DInt 1)]) st0 = (Ok (ddict [(DStr "a", DInt 7); (DStr "b", DInt 1)]), st0).
Proof. eexists. split; reflexivity. Qed.

(** C13: whatever tokens a checked Literal field carries and whatever happened before, it
    only ever returns one of the literals. *)
Theorem c13_literal : forall {obj ty W} (P : Py obj ty W) dflt lid vals toks ops f,
  make_filler P dflt (HAnn (HLiteral lid vals) toks) ops = Ok f ->
  eff_style dflt (own_ops ops ++ toks) <> SHollow ->
  forall x w y w', call P f x w = (Ok y, w') ->
  exists l, In l vals /\ type_of P y = type_of P l /\ lit_eq P y l = true.
Proof. exact (@c13_literal_proof). Qed.
Print Assumptions c13_literal.

Example c13_int : exists f,
  make_filler demo0 SCheck (HAnn (HLiteral 0 [DInt 1; DStr "a"]) [coerce_with (fun _ => ret (DBool true))]) [] = Ok f /\
  call demo0 f (DInt 1) st0 = (Ok (DInt 1), st0) /\
  (exists e w', call demo0 f (DBool true) st0 = (Raise e, w')) /\ (exists e w', call demo0 f DNone st0 = (Raise e, w')).
Proof. eexists. split; [reflexivity|]. repeat split; repeat eexists. Qed.

(** C13: a value that a Literal field without tokens refuses is refused with a TypeError if its type
    does not match, with the error of hash() if it has no hash, and with a ValueError otherwise. *)
Theorem c13_errors : forall {obj ty W} (P : Py obj ty W) s lid vals f x w e w',
  s = SCheck \/ s = SStrict -> make_filler P s (HLiteral lid vals) [] = Ok f ->
  call P f x w = (Raise e, w') ->
  exc_cls e = TypeError \/ hash_error P x = Some e \/ (hash_error P x = None /\ exc_cls e = ValueError).
Proof. exact (@c13_errors_proof). Qed.
Print Assumptions c13_errors.

(** a coercer that gives a list *)
Example c13_unhashable : exists f,
  make_filler demo0 SCheck (HAnn (HLiteral 0 [DInt 1; DStr "a"]) [coerce_with (fun _ => ret (dlist []))]) [] = Ok f /\
  (exists w', call demo0 f DNone st0 = (Raise (mkexc TypeError "unhashable type"), w')) /\
  (exists g w', make_filler demo0 SCheck (HLiteral 0 [DInt 1]) [] = Ok g /\ call demo0 g (DBool true) st0 = (Raise (mkexc ValueError ""), w')).
Proof. eexists. split; [reflexivity|]. split; repeat eexists. Qed.

(** C16 does not hold: a Union field of classes that are not checked accepts everything, whatever
    validators are attached to it. *)
Theorem c16_union_refuted : forall {obj ty W} (P : Py obj ty W) dflt ts toks f x w,
  ts <> [] -> eff_style dflt toks = SHollow ->
  make_filler P dflt (HAnn (HUnion (map HTy ts)) toks) [] = Ok f ->
  call P f x w = (Ok x, w).
Proof. exact (@c16_union_refuted_proof). Qed.
Print Assumptions c16_union_refuted.

(** a validator that rejects every value *)
Example c16_union_case :
  exists obj ty W (P : Py obj ty W) hs v f x w,
    hs <> [] /\
    (forall y w, exists e w', v y w = (Raise e, w')) /\
    make_filler P SHollow (HAnn (HUnion hs) [TValid (VGlobal (fun _ => Ok v))]) [] = Ok f /\
    call P f x w = (Ok x, w).
Proof.
  exists dobj, dty, demo_state, demo0, [HTy TInt; HTy TStr], (fun _ => raise (mkexc ValueError "")).
  eexists. exists (DInt 1), st0. split; [discriminate|]. split; [intros; repeat eexists|]. split; reflexivity.
Qed.

(** nor for the elements of a checked container: a list of elements whose class is not checked,
    with whatever validators, is treated as if nothing was said about its elements. *)
Theorem c16_elements_refuted : forall {obj ty W} (P : Py obj ty W) dflt rk t te etoks toks f,
  plain_class P t -> eff_style dflt etoks = SHollow ->
  make_filler P dflt (HAnn (HIter rk t (HAnn (HTy te) etoks)) toks) [] = Ok f ->
  exists f0, make_filler P dflt (HAnn (HTy t) toks) [] = Ok f0 /\ forall x w, call P f x w = call P f0 x w.
Proof. exact (@c16_elements_refuted_proof). Qed.
Print Assumptions c16_elements_refuted.

(** a validator that rejects every element *)
Example c16_elements_case :
  exists obj ty W (P : Py obj ty W) rk t h v f x l w,
    (forall y w, exists e w', v y w = (Raise e, w')) /\
    make_filler P SHollow (HAnn (HIter rk t (HAnn h [TValid (VGlobal (fun _ => Ok v))])) [TStyle SCheck]) [] = Ok f /\
    elems P x = Some l /\ l <> [] /\
    call P f x w = (Ok x, w).
Proof.
  exists dobj, dty, demo_state, demo0, RkPlain, TList, (HTy TInt), (fun _ => raise (mkexc ValueError "")).
  eexists. exists (dlist [DInt 1]), [DInt 1], st0. split; [intros; repeat eexists|]. split; [reflexivity|].
  split; [reflexivity|]. split; [discriminate|reflexivity].
Qed.

(** C16, what does hold: with validators that only assert, every validator that is in force
    at a place of the annotation where types are checked and that is not a container has
    accepted the value stored at that place, to any depth.  Missing: hollow Unions and
    hollow elements (refuted above); containers (C17). *)
Theorem c16_partial : forall {obj ty W} (P : Py obj ty W) dflt h ops f,
  honest_containers P ->
  make_filler P dflt h ops = Ok f ->
  Forall asserting (hint_tokens h ++ map snd ops) ->
  forall x w y w', call P f x w = (Ok y, w') ->
  vetted P dflt (sub_ops ops) (own_ops ops) [] h y.
Proof. exact (@c16_partial_proof). Qed.
Print Assumptions c16_partial.

(** C17 does not hold: the validators of a checked list field are asked about the argument, before
    its elements are filled.  If one of them rejects it, filling the elements does not help; if
    they accept it, they are not asked about what becomes of it. *)
Theorem c17_refuted : forall {obj ty W} (P : Py obj ty W) dflt rk t h toks f,
  plain_class P t -> eff_style dflt toks = SCheck \/ eff_style dflt toks = SStrict ->
  make_filler P dflt (HAnn (HIter rk t h) toks) [] = Ok f ->
  exists vs, declared_validators (OTy t) toks vs /\
  forall x w, class_ok P (eff_style dflt toks) t x ->
    (forall e w1, in_order vs x w = (Raise e, w1) -> call P f x w = (Raise e, w1)) /\
    (forall w1 g, in_order vs x w = (Ok x, w1) -> hollow_hint dflt no_sub_tokens [] [] h = false ->
       make_filler P dflt h [] = Ok g -> call P f x w = fill_elements P rk (call P g) x w1).
Proof. exact (@c17_refuted_proof). Qed.
Print Assumptions c17_refuted.

(** a validator that writes its argument to the log: the original list, whose element is not of the declared class *)
Example c17_case :
  exists obj ty W (P : Py obj ty W) (log : W -> list obj) v rk t te etoks f x y e w w',
    (forall z w, exists w', v z w = (Ok z, w') /\ log w' = log w ++ [z]) /\
    eff_style SHollow etoks = SCheck /\
    make_filler P SHollow (HAnn (HIter rk t (HAnn (HTy te) etoks)) [TStyle SCheck; TValid (VGlobal (fun _ => Ok v))]) [] = Ok f /\
    call P f x w = (Ok y, w') /\ log w = [] /\ log w' = [x] /\
    elems P x = Some [e] /\ ~ class_ok P SCheck te e.
Proof.
  exists dobj, dty, demo_state, demo0, snd, logging, RkPlain, TList, TInt, [TStyle SCheck; TCoerce (CGlobal (fun _ => Ok (fun _ => ret (DInt 5))))].
  eexists. exists (dlist [DStr "x"]). eexists. exists (DStr "x"), st0. eexists.
  split; [intros; eexists; split; reflexivity|]. split; [reflexivity|]. split; [reflexivity|]. split; [reflexivity|].
  split; [reflexivity|]. split; [reflexivity|]. split; [reflexivity|]. cbn. intros [|]; discriminate.
Qed.

(** C17, what does hold: with validators that only assert, the validators of a checked
    list/set/... field have all accepted one object z of the declared class; if no element
    of z had to be changed then z is what is stored, and its elements conform.  Missing:
    containers whose elements are changed. *)
Theorem c17_partial : forall {obj ty W} (P : Py obj ty W) dflt rk t h toks ops f,
  honest_containers P -> plain_class P t ->
  make_filler P dflt (HAnn (HIter rk t h) toks) ops = Ok f ->
  Forall asserting (hint_tokens h ++ toks ++ map snd ops) ->
  let s := eff_style dflt (own_ops ops ++ toks) in
  s = SCheck \/ s = SStrict ->
  exists vs, declared_validators (OTy t) (own_ops ops ++ toks) vs /\
  forall x w y w', call P f x w = (Ok y, w') ->
  exists z, class_ok P s t z /\
    (forall v, In v vs -> exists w1 w2, v z w1 = (Ok z, w2)) /\
    (y = z -> forall l e, elems P y = Some l -> In e l -> conforms P dflt no_sub_tokens (sub_ops ops 0) [] h e).
Proof. exact (@c17_partial_proof). Qed.
Print Assumptions c17_partial.

(** C19: if the program's state records an exception that is not an Exception from the
    moment a callback raises it, then whenever one was raised during a fill, it is what
    the fill raises; nothing else was tried after it. *)
Theorem c19_interrupts : forall {obj ty W} (P : Py obj ty W) (pending : W -> option exc) dflt h ops f,
  make_filler P dflt h ops = Ok f ->
  Forall (token_keeps pending) (hint_tokens h ++ map snd ops) ->
  runtime_keeps P pending ->
  forall x, keeps_interrupts pending (call P f x).
Proof. exact (@c19_interrupts_proof). Qed.
Print Assumptions c19_interrupts.

(** an interrupt in the second coercer, inside a Union member, inside a list *)
Definition interrupt : exc := mkexc (NotException 0) "KeyboardInterrupt".
Definition state19 := (list (nat * dty) * option exc)%type.
Definition demo19 : Py dobj dty state19 := demo (fun w => fst w) (fun l w => (l, snd w)).
Definition interrupted : @token dobj dty state19 :=
  TCoerce (CGlobal (fun _ => Ok (fun _ w => (Raise interrupt, (fst w, Some interrupt))))).
Definition hint19 : @hint dobj dty state19 := HIter RkPlain TList (HUnion [HAnn (HTy TInt) [interrupted]; HTy TStr]).

Example c19_list : exists f,
  make_filler demo19 SCheck hint19 [] = Ok f /\
  Forall (token_keeps (fun w => snd w)) (hint_tokens hint19 ++ map snd (@nil (option nat * @token dobj dty state19))) /\
  runtime_keeps demo19 (fun w => snd w) /\
  call demo19 f (dlist [DStr "a"]) ([], None) = (Raise interrupt, ([], Some interrupt)).
Proof.
  eexists. split; [reflexivity|]. split; [|split; [|reflexivity]].
  - repeat constructor. intros o f E x w H. injection E as <-. reflexivity.
  - repeat split.
    + intros rk v es w H. cbn. destruct v; cbn; assumption.
    + intros rk v es w H. cbn. destruct v; cbn; assumption.
    + intros v z w H. cbn. assumption.
    + intros v b. cbn. destruct v; cbn; reflexivity || exact I.
    + exact dhash_error_Exception.
Qed.

(** C68: FromInteger can only be attached to bool fields, and there it stands for the
    function that maps what equals 0 to False, what equals 1 to True and raises TypeError
    otherwise. *)
Theorem c68_from_integer : forall {obj ty W} (P : Py obj ty W) dflt h o toks ops f,
  match h with
  | HTy t | HBare t => o = OTy t
  | HNone => o = OTy (t_none P)
  | HCallable => o = OCallable
  | HAny => o = OTy (t_object P)
  | HLiteral _ _ => o = OLiteral
  | _ => False
  end ->
  make_filler P dflt (HAnn h toks) ops = Ok f ->
  In (TCoerce CFromInteger) toks ->
  o = OTy (t_bool P) /\
  exists cs c, declared_coercers P o (own_ops ops ++ toks) cs /\ In c cs /\
    forall x w, c x w = (let* zero := eq_int P x 0 in
                         if zero : bool then ret (o_false P) else
                         let* one := eq_int P x 1 in
                         if one : bool then ret (o_true P) else raise (mkexc TypeError "")) w.
Proof. exact (@c68_from_integer_proof). Qed.
Print Assumptions c68_from_integer.

Example c68_bool : exists f,
  make_filler demo0 SCheck (HAnn (HTy TBool) [TCoerce CFromInteger]) [] = Ok f /\
  call demo0 f (DInt 1) st0 = (Ok (DBool true), st0) /\ call demo0 f (DInt 0) st0 = (Ok (DBool false), st0) /\
  (exists e, call demo0 f (DInt 2) st0 = (Raise e, st0)) /\
  (exists e, make_filler demo0 SCheck (HAnn (HTy TInt) [TCoerce CFromInteger]) [] = Raise e).
Proof. eexists. split; [reflexivity|]. repeat split; eexists; reflexivity. Qed.

(** C70: ComposeCoercer(a1, ..., an) stands for a1(a2(...an(v))), stopping at the first
    exception (the bind of [compose]); nesting is associative: a ComposeCoercer inside a
    ComposeCoercer can be spliced in. *)
Theorem c70_compose : forall {obj ty W} (P : Py obj ty W) k cs f,
  get_coercer P k (CCompose cs) = Ok f ->
  exists fs, Forall2 (yields P (origin_of P k)) cs fs /\ forall x w, f x w = compose fs x w.
Proof. exact (@c70_compose_proof). Qed.
Print Assumptions c70_compose.

Theorem c70_associative : forall {obj ty W} (P : Py obj ty W) o cs1 cs2 cs3 f g,
  yields P o (CCompose (cs1 ++ CCompose cs2 :: cs3)) f ->
  yields P o (CCompose (cs1 ++ cs2 ++ cs3)) g ->
  forall x w, f x w = g x w.
Proof. exact (@c70_associative_proof). Qed.
Print Assumptions c70_associative.

Example c70_two : exists f,
  make_filler demo0 SCheck (HAnn (HTy TInt) [TCoerce (CCompose [CGlobal (fun _ => Ok (fun x => let* y := logging x in ret (DInt 9)));
                                                             CCompose [CGlobal (fun _ => Ok (fun x => ret (DStr "m")))]])]) [] = Ok f /\
  call demo0 f DNone st0 = (Ok (DInt 9), ([], [DStr "m"])).
Proof. eexists. split; reflexivity. Qed.

(** C15: a declaration that contradicts itself anywhere in its annotation tree is refused
    when the class is created. *)
Theorem c15_refused : forall {obj ty W} (P : Py obj ty W) dflt h ops,
  consistent P dflt (sub_ops ops) (own_ops ops) [] h = false ->
  exists e, make_filler P dflt h ops = Raise e.
Proof. exact (@c15_refused_proof). Qed.
Print Assumptions c15_refused.

(** ... and nothing else is: with tokens that every annotation understands, a declaration
    is refused exactly when it contradicts itself. *)
Theorem c15_exact : forall {obj ty W} (P : Py obj ty W) dflt h ts,
  Forall understood (ts ++ hint_tokens h) ->
  ((exists f, make_filler P dflt h (own_only ts) = Ok f) <-> consistent P dflt no_sub_tokens ts [] h = true).
Proof. exact (@c15_exact_proof). Qed.
Print Assumptions c15_exact.

(** the exceptions of the five contradictions, each at the top of an annotation *)
Theorem c15_hollow_with_coercers : forall {obj ty W} (P : Py obj ty W) dflt t toks,
  Forall understood toks -> eff_style dflt toks = SHollow -> has_coercer toks = true ->
  exists m, make_filler P dflt (HAnn (HTy t) toks) [] = Raise (mkexc ValueError m).
Proof. exact (@c15_hollow_with_coercers_proof). Qed.
Print Assumptions c15_hollow_with_coercers.

Theorem c15_strict_abstract : forall {obj ty W} (P : Py obj ty W) dflt t toks,
  Forall understood toks -> eff_style dflt toks = SStrict -> isabstract P t = true ->
  exists m, make_filler P dflt (HAnn (HTy t) toks) [] = Raise (mkexc TypeError m).
Proof. exact (@c15_strict_abstract_proof). Qed.
Print Assumptions c15_strict_abstract.

Theorem c15_hollow_container : forall {obj ty W} (P : Py obj ty W) dflt rk t h toks g,
  Forall understood toks -> eff_style dflt toks = SHollow -> has_coercer toks = false ->
  make_filler P dflt h [] = Ok g -> hollow_hint dflt no_sub_tokens [] [] h = false ->
  exists m, make_filler P dflt (HAnn (HIter rk t h) toks) [] = Raise (mkexc TypeError m).
Proof. exact (@c15_hollow_container_proof). Qed.
Print Assumptions c15_hollow_container.

Theorem c15_unspecialised : forall {obj ty W} (P : Py obj ty W) dflt t h toks g f,
  make_filler P dflt (HAnn (HTy t) toks) [] = Ok f -> ty_eqb P t (t_bool P) = false -> ty_eqb P t (t_none P) = false ->
  ty_eqb P t (t_ellipsis P) = false ->
  make_filler P dflt h [] = Ok g -> hollow_hint dflt no_sub_tokens [] [] h = false ->
  exists m, make_filler P dflt (HAnn (HGenN t [h]) toks) [] = Raise (mkexc TypeError m).
Proof. exact (@c15_unspecialised_proof). Qed.
Print Assumptions c15_unspecialised.

Theorem c15_not_a_type : forall {obj ty W} (P : Py obj ty W) dflt ts,
  dflt <> SHollow -> exists m, make_filler P dflt HOther (own_only ts) = Raise (mkexc TypeError m).
Proof. exact (@c15_not_a_type_proof). Qed.
Print Assumptions c15_not_a_type.

(** Dict[str, Annotated[List[int], hollow]] in a checked class: the inner list is a hollow
    container of checked elements *)
Example c15_nested :
  consistent demo0 SCheck no_sub_tokens [] [] (HMap RkPlain TDict (HTy TStr) (HAnn (HIter RkPlain TList (HTy TInt)) [TStyle SHollow])) = false /\
  (exists e, make_filler demo0 SCheck (HMap RkPlain TDict (HTy TStr) (HAnn (HIter RkPlain TList (HTy TInt)) [TStyle SHollow])) [] = Raise e) /\
  consistent demo0 SCheck no_sub_tokens [] [] (HMap RkPlain TDict (HTy TStr) (HAnn (HIter RkPlain TList (HAnn (HTy TInt) [TStyle SHollow])) [TStyle SHollow])) = true.
Proof. split; [reflexivity|]. split; [eexists; reflexivity|reflexivity]. Qed.

(** C18: once a field's filler is bound, neither it nor any of the fillers inside it accepts
    another token (RuntimeError or, for what is not a type, TypeError), directly or through a
    key, nor can it be bound again. *)
Theorem c18_sealed : forall {obj ty W} (P : Py obj ty W) dflt h ops f path g,
  make_filler P dflt h ops = Ok f -> reach path f = Ok g ->
  (forall t, exists e, apply P g t = Raise e /\ (exc_cls e = RuntimeError \/ exc_cls e = TypeError)) /\
  (forall k t, exists e, apply_at P k t g = Raise e) /\
  (forall dflt', exists e, bind_filler P dflt' g = Raise e).
Proof. exact (@c18_sealed_proof). Qed.
Print Assumptions c18_sealed.

Example c18_list_of_union : exists f g,
  make_filler demo0 SCheck (HIter RkPlain TList (HUnion [HTy TInt; HTy TStr])) [] = Ok f /\
  reach [Some 0; Some 1] f = Ok g /\ exists e, apply demo0 g (TStyle SHollow) = Raise e.
Proof. eexists; eexists. split; [reflexivity|]. split; [reflexivity|]. eexists; reflexivity. Qed.
