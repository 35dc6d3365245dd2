(** Props_Subkeys.v -- property theorems: sub_keys of any kind (records/fillers/filler.py:87-96, records/field.py:128-130)
    Each theorem is closed by the lemma of the same statement in Subkeys_main.v; the examples
    show that concrete, non-trivial cases meet the hypotheses. *)

From Verif Require Import Base Py Filler Spec_Filler Spec_Added Subkeys Spec_Subkeys Classes Demo.
From Verif Require Import Filler_proofs Filler_sound Filler_shape Filler_eqs.
From Verif Require Added_main Dict_proofs Classes_proofs.
Open Scope string_scope.
Open Scope list_scope.

From Verif Require Import Subkeys_main.

(** C159: a sub_key names a part as Python's indices do: the members of a Union or a Tuple are
    counted from the front, or with negative numbers from the end; the elements of a collection,
    and the keys and the values of a mapping, are named by whatever is equal to 0 or 1.  The
    sub-filler is the filler of that part of the annotation. *)
Theorem c159_part : forall {obj ty W} (P : Py obj ty W) h f k i,
  get_filler P h = Ok f -> names h k i ->
  exists p s, nth_error (parts h) i = Some p /\ get_filler P p = Ok s /\ sub_filler_of f k = Ok s.
Proof. exact (@c159_part_proof). Qed.
Print Assumptions c159_part.

(** C159: any other key is refused with LookupError (or IndexError, which is one); None is the
    field itself.  [comparable]: the == of the key does not raise. *)
Theorem c159_refused : forall {obj ty W} (P : Py obj ty W) h f k,
  get_filler P h = Ok f ->
  sub_filler_of f SkNone = Ok f /\
  (k <> SkNone -> comparable k -> (forall i, ~ names h k i) ->
   forall dflt t before after, (forall kt, In kt before -> fst kt = SkNone) ->
   (exists e, sub_filler_of f k = Raise e /\ is_lookup_error e = true) /\
   (exists e, make_keyed P dflt h (before ++ (k, t) :: after) = Raise e)).
Proof. exact (@c159_refused_proof). Qed.
Print Assumptions c159_refused.

(** C159: so it does not matter how a part is named: adding tokens with keys of any kind gives the
    field that adding them with the plain numbers of the parts gives (which is what C96 is
    about). *)
Theorem c159_added : forall {obj ty W} (P : Py obj ty W) dflt h ops nops,
  Forall2 (fun kt pt => stands_for h (fst kt) (fst pt) /\ snd kt = snd pt) ops nops ->
  make_keyed P dflt h ops = make_filler P dflt h nops.
Proof. exact (@c159_added_proof). Qed.
Print Assumptions c159_added.

(** C159: a key names at most one part. *)
Theorem c159_one : forall {obj ty W} (h : @hint obj ty W) k i j, names h k i -> names h k j -> i = j.
Proof. exact (@c159_one_proof). Qed.
Print Assumptions c159_one.

(** the second member of Union[int, str], counted from the end; the values of a Dict named by 1.0
    and by True; -1 names no part of List[int] *)
Example c159_case :
  let u : @hint dobj dty demo_state := HAnn (HUnion [HTy TInt; HTy TStr]) [] in
  let d : @hint dobj dty demo_state := HMap RkPlain TDict (HTy TStr) (HTy TInt) in
  let l : @hint dobj dty demo_state := HIter RkPlain TList (HTy TInt) in
  let one := SkObj (fun z => Ok (Z.eqb z 1)) in
  names u (SkInt (-1)) 1 /\ names u (SkInt 1) 1 /\ names d one 1 /\ names d (SkInt 1) 1 /\
  (forall i, ~ names l (SkInt (-1)) i) /\ (forall i, ~ names u one i) /\ comparable one /\
  (exists f, get_filler demo0 u = Ok f /\ sub_filler_of f (SkInt (-1)) = sub_filler_of f (SkInt 1) /\ sub_filler_of f (SkInt (-3)) = Raise index_error).
Proof.
  cbv zeta. split; [|split; [|split; [|split; [|split; [|split; [|split]]]]]].
  - split; [cbn; lia|]. exists (-1)%Z. split; [reflexivity|right; reflexivity].
  - split; [cbn; lia|]. exists 1%Z. split; [reflexivity|left; reflexivity].
  - split; [cbn; lia|]. split; [apply key_eq_equals; reflexivity|]. intros j L. assert (j = 0) by lia. subst j. apply key_eq_equals. reflexivity.
  - split; [cbn; lia|]. split; [apply key_eq_equals; reflexivity|]. intros j L. assert (j = 0) by lia. subst j. apply key_eq_equals. reflexivity.
  - intros i [L [E _]]. cbn in L. assert (i = 0) by lia. subst i. apply key_eq_equals in E. discriminate.
  - intros i [_ (z & E & _)]. discriminate.
  - intros z. exists (Z.eqb z 1). reflexivity.
  - eexists. split; [reflexivity|split; reflexivity].
Qed.

(** negate is added to the ints of Dict[str, int], the values being named by 1.0 *)
Example c159_added_case :
  let d : @hint dobj dty demo_state := HMap RkPlain TDict (HTy TStr) (HTy TInt) in
  let one := SkObj (fun z => Ok (Z.eqb z 1)) in
  Forall2 (fun kt pt => stands_for d (fst kt) (fst pt) /\ snd kt = snd pt) [(one, Added_main.neg_then)] [(Some 1, Added_main.neg_then)] /\
  exists f, make_keyed demo0 SCheck d [(one, Added_main.neg_then)] = Ok f /\
    call demo0 f (ddict [(DStr "a", DInt 5)]) st0 = (Ok (ddict [(DStr "a", DInt (-5))]), st0).
Proof.
  cbv zeta. split.
  - constructor; [|constructor]. split; [|reflexivity]. cbn [stands_for fst]. split; [cbn; lia|]. split; [reflexivity|].
    intros j L. assert (j = 0) by lia. subst j. reflexivity.
  - eexists. split; [reflexivity|reflexivity].
Qed.

(** C159: adding anything to something that is no field of the class is an AttributeError, whatever
    was added to other fields before *)
Theorem c159_no_field : forall {obj ty W} (P : Py obj ty W) t fr ord un s anns inh st bases ops k key tok more parsers post c,
  make_class P (Decl t fr ord un s anns inh st bases ops parsers post) = Ok c -> ~ In k (keys (c_fields c)) ->
  make_class P (Decl t fr ord un s anns inh st bases (ops ++ (k, (key, tok)) :: more) parsers post) = Raise (mkexc AttributeError k).
Proof. exact (@c159_no_field_proof). Qed.
Print Assumptions c159_no_field.

Example c159_no_field_case : exists c,
  make_class demo0 (Decl (TInt) false false None SCheck [("x", AHint (HTy TInt) [])] [] (fun _ => NoDefault) [] [("x", (None, TStyle SStrict))] [] (fun _ => ret DNone)) = Ok c /\
  ~ In "y" (keys (c_fields c)).
Proof. eexists. split; [reflexivity|]. cbn. intros [H|[]]. discriminate. Qed.
