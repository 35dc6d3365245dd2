(** Props_Registry.v -- property theorems: Which filler class an annotation gets (records/fillers/get_filler.py, builtin_fillers/repo.py)
    Each theorem is closed by the lemma of the same statement in Registry_main.v; the examples
    show that concrete, non-trivial cases meet the hypotheses. *)

From Verif Require Import Base Py Filler Hints Registry Spec_Registry Demo DemoTyping.
Open Scope list_scope.

From Verif Require Import Registry_main.

(** C141: Filler.v and Hints.v agree with the registry as the library fills it.  Whatever the
    annotation, the search ends, and the filler that the model builds (if it builds one) is of the
    class found.  Where none is found, tokens are refused. *)
Theorem c141_library : forall {O obj ty W} (P : Py obj ty W) T eqb is_type issub G (A : Annots O ty) sub o y,
  lawful P T eqb is_type issub G A sub -> pictures P T is_type G A o y -> (forall y' ms, y <> YAnn y' ms) ->
  exists n0 m, (forall n, n0 <= n -> resolve eqb is_type issub n (library eqb P G A) o = Ok m) /\
    (forall args f, gaf P args (hint_of P T y) = Ok f -> is_built P A f m) /\
    (forall o' args, m = Dumb o' -> args <> [] -> exists e, gaf P args (hint_of P T y) = Raise e).
Proof. exact (@c141_library_proof). Qed.
Print Assumptions c141_library.

(** C141: the class last registered for an annotation is used for it, whatever else was
    registered before and after. *)
Theorem c141_registered : forall {O obj ty W} (P : Py obj ty W) T eqb is_type issub G (A : Annots O ty) sub es k c n,
  lawful P T eqb is_type issub G A sub -> last_for eqb k es = Some c ->
  resolve eqb is_type issub (S n) (history eqb (library eqb P G A) es) k = Ok (Made c k).
Proof. exact (@c141_registered_proof). Qed.
Print Assumptions c141_registered.

(** C141: deleting an entry undoes its registration; what was registered for other annotations
    stays, in its place. *)
Theorem c141_unregister : forall {O obj ty W} (P : Py obj ty W) T eqb is_type issub G (A : Annots O ty) sub k c (r : registry O),
  lawful P T eqb is_type issub G A sub ->
  (find eqb k (fmap r) = None -> unregister eqb k (register eqb k c r) = r) /\
  (forall k', find eqb k' (fmap (unregister eqb k r)) = if eqb k' k then None else find eqb k' (fmap r)).
Proof. exact (@c141_unregister_proof). Qed.
Print Assumptions c141_unregister.

(** C141: registrations change nothing for other annotations: those which are not registered
    and do not lead to one that is (like a NewType of it), as long as [object] is not registered
    anew. *)
Theorem c141_others : forall {O obj ty W} (P : Py obj ty W) T eqb is_type issub G (A : Annots O ty) sub es o n,
  lawful P T eqb is_type issub G A sub -> appended es = [] -> last_for eqb (a_class A (t_object P)) es = None ->
  (forall k, leads eqb (library eqb P G A) k o -> last_for eqb k es = None) ->
  resolve eqb is_type issub n (history eqb (library eqb P G A) es) o = resolve eqb is_type issub n (library eqb P G A) o.
Proof. exact (@c141_others_proof). Qed.
Print Assumptions c141_others.

(** C141 fails for subclasses: "if none of them match, the mapping is checked again for
    subclassing" (repo.py:8-9) finds [object] before anything that was registered later.  A class
    without an entry of its own gets the filler of [object], whatever was registered for its
    superclasses. *)
Theorem c141_subclasses_refuted : forall {O obj ty W} (P : Py obj ty W) T eqb is_type issub G (A : Annots O ty) sub es t c u n,
  lawful P T eqb is_type issub G A sub -> appended es = [] ->
  last_for eqb (a_class A t) es = Some c -> t <> t_object P -> sub u t = true ->
  last_for eqb (a_class A u) es = None -> class_kind P u = KSimple u -> u <> t_object P ->
  resolve eqb is_type issub (S n) (history eqb (library eqb P G A) es) (a_class A u) =
  Ok (Made (match last_for eqb (a_class A (t_object P)) es with Some c' => c' | None => CSimple end) (a_class A u)).
Proof. exact (@c141_subclasses_refuted_proof). Qed.
Print Assumptions c141_subclasses_refuted.

(** ... what decides for a class without an entry is the first entry, in the order of the map, for
    a superclass: a program which puts its entry in front of that of [object] (by building the map
    anew) reaches subclasses. *)
Theorem c141_subclasses_partial : forall {O obj ty W} (P : Py obj ty W) T eqb is_type issub G (A : Annots O ty) sub m1 t c m2 u n,
  lawful P T eqb is_type issub G A sub ->
  Forall (fun e => exists t', fst e = a_class A t' /\ sub u t' = false) m1 -> sub u t = true ->
  find eqb (a_class A u) (m1 ++ (a_class A t, c) :: m2) = None ->
  resolve eqb is_type issub (S n) (Registry (m1 ++ (a_class A t, c) :: m2) (checkers (library eqb P G A))) (a_class A u)
  = Ok (Made c (a_class A u)).
Proof. exact (@c141_subclasses_partial_proof). Qed.
Print Assumptions c141_subclasses_partial.

(** C141: checkers that were appended are asked in order, about annotations that are not registered
    and that the library's own checkers leave alone -- among them all classes. *)
Theorem c141_checkers : forall {O obj ty W} (P : Py obj ty W) T eqb is_type issub G (A : Annots O ty) sub es o c n,
  lawful P T eqb is_type issub G A sub -> last_for eqb o es = None -> find eqb o (fmap (library eqb P G A)) = None ->
  (ask (checkers (library eqb P G A)) o = Ok (Use c) ->
   resolve eqb is_type issub (S n) (history eqb (library eqb P G A) es) o = Ok (Made c o)) /\
  (forall fs f gs, appended es = fs ++ f :: gs -> ask (checkers (library eqb P G A)) o = Ok NoMatch ->
   Forall (fun g => g o = Ok NoMatch) fs -> f o = Ok (Use c) ->
   resolve eqb is_type issub (S n) (history eqb (library eqb P G A) es) o = Ok (Made c o)) /\
  (forall t, ask (checkers (library eqb P G A)) (a_class A t) = Ok NoMatch).
Proof. exact (@c141_checkers_proof). Qed.
Print Assumptions c141_checkers.

(** a concrete program: classes, NewTypes and parametrized forms as objects.  A filler is
    registered for record class 7, a checker for [Iterable]-like classes appended.  Class 107, a
    subclass of 7, keeps the filler of object; a NewType of 7 follows the registration. *)
Inductive note := NC (t : dty) | NNone | NAny | NCallable | NUnion | NLiteral | NNew (s : note) | NBare (g : note) | NAlias (g a : note) | NVar.
Definition note_eq (x y : note) : {x = y} + {x <> y}.
Proof. decide equality. apply dty_eq. Defined.
Definition noteb (x y : note) : bool := if note_eq x y then true else false.
Definition notes : Annots note dty := {|
  a_supertype := fun o => match o with NNew s => Some s | _ => None end;
  a_origin := fun o => match o with NAlias g _ | NBare g => Some g | _ => None end;
  a_args := fun o => match o with NAlias _ a => [a] | _ => [] end;
  a_typevar := fun o => match o with NVar => true | _ => false end;
  a_class := NC; a_none := NNone; a_any := NAny; a_callable := NCallable; a_union := NUnion; a_literal := NLiteral;
  a_callable_base := NC TFun |}.
Definition note_type (o : note) : bool := match o with NC _ => true | _ => false end.
Definition note_sub (a b : note) : outcome bool :=
  match a, b with NC t, NC u => Ok (dsub t u) | _, _ => Raise (mkexc TypeError "") end.
Definition note_gmap (o : note) : option generic_kind := match o with NC t => gmap typing0 t | _ => None end.
Example c141_lawful : lawful demo0 typing0 noteb note_type note_sub note_gmap notes dsub.
Proof.
  constructor; cbn; try (repeat split; congruence).
  - intros a b. unfold noteb. destruct (note_eq a b); split; congruence.
  - intros [t| | | | | | | | |]; split; try discriminate; eauto; intros [u H]; discriminate.
  - intros t. destruct t; reflexivity.
  - intros t. destruct t; cbn; intros H; try discriminate; reflexivity.
  - intros t. destruct t; cbn; intros H; try discriminate; reflexivity.
  - intros o [[t ->] | [-> | [-> | ->]]]; split; reflexivity.
Qed.
Definition note_events : list (@event note) := [Register (NC (TRec 7)) (CUser 1); Append (fun o => Ok (match o with NC TList => Use (CUser 2) | _ => NoMatch end))].
Example c141_case :
  let r := history noteb (library noteb demo0 note_gmap notes) note_events in
  let found := fun o => resolve noteb note_type note_sub 5 r o in
  dsub (TRec 107) (TRec 7) = true /\
  found (NC (TRec 7)) = Ok (Made (CUser 1) (NC (TRec 7))) /\
  found (NNew (NC (TRec 7))) = Ok (Made (CUser 1) (NC (TRec 7))) /\
  found (NC (TRec 107)) = Ok (Made CSimple (NC (TRec 107))) /\
  found (NC TList) = Ok (Made (CUser 2) (NC TList)) /\
  found (NAlias (NC TList) (NC TInt)) = Ok (Made (CIter RkPlain) (NAlias (NC TList) (NC TInt))) /\
  found (NC TBool) = Ok (Made CBool (NC TBool)) /\ found NAny = Ok (Made CSimple (NC TObject)).
Proof. repeat split. Qed.
Example c141_pictures : pictures demo0 typing0 note_type note_gmap notes (NNew (NAlias (NC TList) (NC TInt))) (YNewType (@YAlias dobj dty demo_state TList [YClass TInt])).
Proof. cbn. eexists. split; [reflexivity|]. repeat split; try discriminate. constructor; [split; discriminate|constructor]. Qed.
