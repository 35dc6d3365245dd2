(** Props_Names.v -- property theorems: annotations written as text
    Each theorem is closed by the lemma of the same statement in Names_main.v; the examples
    show that concrete, non-trivial cases meet the hypotheses. *)

From Verif Require Import Base Py Filler Classes Names Spec_Names Dict_proofs Classes_proofs.
Open Scope string_scope.
Open Scope list_scope.

From Verif Require Import Names_main.

(** C120, what does hold: if every annotation of a class and of its bases means something,
    whatever of it is written as text, then the annotations the library sees are what the
    annotations mean, once for every name, in the order of the bases and then of the class. *)
Theorem c120_meaning : forall {V op} (L : Lang V op) modules (c : pyclass V) rest own others,
  dict_ok (k_anns c) ->
  all_mean L c c (modules (k_module c)) own ->
  Forall2 (fun b ws => all_mean L c b (modules (k_module b)) ws) rest others ->
  exists n, forall fuel m, n <= fuel -> exists hints m',
    class_hints L fuel modules c rest m = (Ok hints, m') /\
    keys hints = filter (fun k => smem k (keys own)) (rev (nodup string_dec (rev (annotated rest)))) ++
                 filter (fun k => negb (smem k (annotated rest))) (keys own) /\
    forall k, dget k hints = dget k own.
Proof. exact (@c120_meaning_proof). Qed.
Print Assumptions c120_meaning.

(** C120: the class is the one that the statement with annotations read makes (Classes.v). *)
Theorem c120_class : forall {V op obj ty W} (L : Lang V op) (P : Py obj ty W) modules (c : pyclass V) rest own others read d,
  dict_ok (k_anns c) ->
  all_mean L c c (modules (k_module c)) own ->
  Forall2 (fun b ws => all_mean L c b (modules (k_module b)) ws) rest others ->
  d_anns d = map (fun kv => (fst kv, read (snd kv))) own ->
  d_inherited_anns d = annotated rest ->
  exists n, forall fuel m, n <= fuel -> exists m',
    create_named L P fuel modules c rest read d m = (make_class P d, m').
Proof. exact (@c120_class_proof). Qed.
Print Assumptions c120_class.

(** C120, what does hold: writing annotations as text changes nothing, if their names mean the
    same to the class body as in the module, and none of them is the name of the class. *)
Theorem c120_quoted_partial : forall {V op} (L : Lang V op) modules locals name qualname self md anns anns' rest own others,
  let g := modules md in
  let c := PyClass name qualname self md anns in
  dict_ok anns ->
  all_mean L c c g own ->
  Forall2 (fun b ws => all_mean L c b (modules (k_module b)) ws) rest others ->
  Forall2 (fun kv kv' => fst kv = fst kv' /\
    (snd kv = snd kv' \/
     exists s e, snd kv' = VText s /\ compile L s = Ok e /\ means L (visible L locals g) e (snd kv) /\
       (is_type L (snd kv) = true \/ exists t, snd kv = VText t) /\
       forall n, In n (names_in e) -> visible L locals g n = bound L c g n)) anns anns' ->
  exists n, forall fuel m, n <= fuel -> exists hints m1 m2,
    class_hints L fuel modules c rest m = (Ok hints, m1) /\
    class_hints L fuel modules (PyClass name qualname self md anns') rest m = (Ok hints, m2).
Proof. exact (@c120_quoted_partial_proof). Qed.
Print Assumptions c120_quoted_partial.

(** C120: a class statement fails if text of its annotations has a name that is neither in
    the module nor built in nor that of the class. *)
Theorem c120_unknown_name : forall {V op} (L : Lang V op) fuel modules (c : pyclass V) rest m k s e n,
  In (k, VText s) (k_anns c) -> compile L s = Ok e -> In n (names_in e) ->
  bound L c (modules (k_module c)) n = None ->
  exists x m', class_hints L fuel modules c rest m = (Raise x, m').
Proof. exact (@c120_unknown_name_proof). Qed.
Print Assumptions c120_unknown_name.

(** C120 does not hold for names of an enclosing function: [k: n] makes the class, [k: 'n']
    makes the class statement fail. *)
Theorem c120_local_refuted : forall {V op} (L : Lang V op) modules locals name qualname self md k s n v rest others,
  let g := modules md in
  compile L s = Ok (XName n) ->
  dget n locals = Some v -> settled v -> (forall t, v <> VText t) ->
  n <> name -> n <> qualname -> dget n g = None -> dget n (builtins L) = None ->
  Forall2 (fun b ws => all_mean L (PyClass name qualname self md [(k, v)]) b (modules (k_module b)) ws) rest others ->
  eval L locals g (XName n) = Ok v /\
  exists f, forall fuel m, f <= fuel -> exists hints m1 x m2,
    class_hints L fuel modules (PyClass name qualname self md [(k, v)]) rest m = (Ok hints, m1) /\
    dget k hints = Some v /\
    class_hints L fuel modules (PyClass name qualname self md [(k, VText s)]) rest m = (Raise x, m2).
Proof. exact (@c120_local_refuted_proof). Qed.
Print Assumptions c120_local_refuted.

(** C120 does not hold for classes that are called like something they annotate with: [k: n]
    means what the module calls [n], [k: 'n'] means the class. *)
Theorem c120_own_name_refuted : forall {V op} (L : Lang V op) modules name qualname self md k s v rest others,
  let g := modules md in
  compile L s = Ok (XName name) ->
  dget name g = Some v -> settled v -> settled self ->
  (forall t, v <> VText t) -> (forall t, self <> VText t) -> is_type L self = true ->
  Forall2 (fun b ws => all_mean L (PyClass name qualname self md []) b (modules (k_module b)) ws) rest others ->
  eval L [] g (XName name) = Ok v /\
  exists f, forall fuel m, f <= fuel -> exists hints m1 hints' m2,
    class_hints L fuel modules (PyClass name qualname self md [(k, v)]) rest m = (Ok hints, m1) /\
    dget k hints = Some v /\
    class_hints L fuel modules (PyClass name qualname self md [(k, VText s)]) rest m = (Ok hints', m2) /\
    dget k hints' = Some self.
Proof. exact (@c120_own_name_refuted_proof). Qed.
Print Assumptions c120_own_name_refuted.

(** C121: what annotations mean does not depend on forward references that were resolved
    before, for other classes. *)
Theorem c121_history : forall {V op obj ty W} (L : Lang V op) (P : Py obj ty W) fuel modules (c : pyclass V) rest read d m1 m2,
  fst (class_hints L fuel modules c rest m1) = fst (class_hints L fuel modules c rest m2) /\
  fst (create_named L P fuel modules c rest read d m1) = fst (create_named L P fuel modules c rest read d m2).
Proof. exact (@c121_history_proof). Qed.
Print Assumptions c121_history.

(** C122, what does hold: of annotations of base classes that can be read only the names
    matter. *)
Theorem c122_bases_partial : forall {V op} (L : Lang V op) fuel modules modules' (c : pyclass V) rest rest' m m' hints hints',
  dict_ok (k_anns c) ->
  modules' (k_module c) = modules (k_module c) ->
  map (fun b => keys (k_anns b)) rest' = map (fun b => keys (k_anns b)) rest ->
  fst (class_hints L fuel modules c rest m) = Ok hints ->
  fst (class_hints L fuel modules' c rest' m') = Ok hints' ->
  hints' = hints.
Proof. exact (@c122_bases_partial_proof). Qed.
Print Assumptions c122_bases_partial.

(** C122 does not hold: text in an annotation of a base class whose names are not bound makes
    the class statement fail. *)
Theorem c122_base_refuted : forall {V op} (L : Lang V op) fuel modules (c : pyclass V) rest m b k s e n,
  In b rest -> In (k, VText s) (k_anns b) -> compile L s = Ok e -> In n (names_in e) ->
  bound L c (modules (k_module b)) n = None ->
  exists x m', class_hints L fuel modules c rest m = (Raise x, m').
Proof. exact (@c122_base_refuted_proof). Qed.
Print Assumptions c122_base_refuted.

(** C123, what does hold: text that is the name of the class means the class. *)
Theorem c123_own_name_partial : forall {V op} (L : Lang V op) modules (c : pyclass V) rest own others k s,
  dict_ok (k_anns c) ->
  all_mean L c c (modules (k_module c)) own ->
  Forall2 (fun b ws => all_mean L c b (modules (k_module b)) ws) rest others ->
  In (k, VText s) (k_anns c) -> compile L s = Ok (XName (k_name c)) -> settled (k_obj c) -> (forall t, k_obj c <> VText t) ->
  exists n, forall fuel m, n <= fuel -> exists hints m',
    class_hints L fuel modules c rest m = (Ok hints, m') /\ dget k hints = Some (k_obj c).
Proof. exact (@c123_own_name_partial_proof). Qed.
Print Assumptions c123_own_name_partial.

(** C123 does not hold for the qualified name of a class inside another: the outer class does
    not exist yet. *)
Theorem c123_qualname_refuted : forall {V op} (L : Lang V op) fuel modules (c : pyclass V) rest m k s o outer,
  In (k, VText s) (k_anns c) ->
  k_qualname c = (outer ++ "." ++ k_name c)%string ->
  compile L s = Ok (XOp o [XName outer]) ->
  outer <> k_name c -> dget outer (modules (k_module c)) = None -> dget outer (builtins L) = None ->
  exists x m', class_hints L fuel modules c rest m = (Raise x, m').
Proof. exact (@c123_qualname_refuted_proof). Qed.
Print Assumptions c123_qualname_refuted.

(** C123 does not hold for the bases of a class: a class inside a function that refers to
    itself by name can have no subclass. *)
Theorem c123_subclass_refuted : forall {V op} (L : Lang V op) fuel modules (c : pyclass V) rest m p k s e,
  In p rest -> In (k, VText s) (k_anns p) -> compile L s = Ok e -> In (k_name p) (names_in e) ->
  dget (k_name p) (modules (k_module p)) = None -> dget (k_name p) (builtins L) = None ->
  k_name p <> k_name c -> k_name p <> k_qualname c ->
  exists x m', class_hints L fuel modules c rest m = (Raise x, m').
Proof. exact (@c123_subclass_refuted_proof). Qed.
Print Assumptions c123_subclass_refuted.

(** A small language: text is a name unless it is in the table; subscription makes aliases,
    with forward references for strings. *)
Inductive demo_op := OSub | OAttr (a : string).
Definition demo_texts : dict (expr demo_op) :=
  [("Optional['Node']", XOp OSub [XName "Optional"; XText "Node"]);
   ("Outer.Inner", XOp (OAttr "Inner") [XName "Outer"])].
Definition demo_lang : Lang nat demo_op := {|
  compile s := match dget s demo_texts with Some e => Ok e | None => Ok (XName s) end;
  operate o vs :=
    match o, vs with
    | OSub, VObj a :: args => Ok (VAlias a (map (fun v => match v with VText s => VRef (Some (String.length s)) s | _ => v end) args))
    | _, _ => Raise (mkexc TypeError "")
    end;
  is_type _ := true;
  copy_with a args := Ok (VAlias a args);
  builtins := [("int", VObj 0)]
|}.
(** modules: 0 is the user's, 1 the library's, 2 another one with a class Node *)
Definition demo_modules (i : nat) : scope nat :=
  match i with
  | 0 => [("Optional", VObj 1); ("date", VObj 5)]
  | 1 => [("bool", VObj 3)]
  | _ => [("Optional", VObj 1)]
  end.
Definition record_base : pyclass nat := PyClass "RecordBase" "RecordBase" (VObj 20) 1 [("_frozen", VText "bool")].
Definition mixin : pyclass nat := PyClass "Mixin" "Mixin" (VObj 21) 0 [("next", VText "date"); ("b", VText "int")].
Definition node : pyclass nat := PyClass "Node" "Node" (VObj 10) 0
  [("value", VText "int"); ("next", VText "Optional['Node']"); ("others", VAlias 1 [VRef (Some 9) "Node"; VObj 0])].
Definition node_hints : dict (value nat) :=
  [("value", VObj 0); ("next", VAlias 1 [VObj 10]); ("others", VAlias 1 [VObj 10; VObj 0])].

(** a list of nodes with a mixin that annotates one of the names too *)
Example c120_case :
  dict_ok (k_anns node) /\
  all_mean demo_lang node node (demo_modules 0) node_hints /\
  Forall2 (fun b ws => all_mean demo_lang node b (demo_modules (k_module b)) ws) [mixin; record_base]
    [[("next", VObj 5); ("b", VObj 0)]; [("_frozen", VObj 3)]] /\
  fst (class_hints demo_lang 9 demo_modules node [mixin; record_base] (fun _ => None)) =
    Ok [("next", VAlias 1 [VObj 10]); ("value", VObj 0); ("others", VAlias 1 [VObj 10; VObj 0])].
Proof.
  assert (N : resolves demo_lang (bound demo_lang node (demo_modules 0)) (VRef (Some 4) "Node") (VObj 10)).
  { eapply res_ref; [reflexivity|apply means_name; reflexivity|reflexivity|intros ? E; discriminate E|constructor; exact I]. }
  assert (N' : resolves demo_lang (bound demo_lang node (demo_modules 0)) (VRef (Some 9) "Node") (VObj 10)).
  { eapply res_ref; [reflexivity|apply means_name; reflexivity|reflexivity|intros ? E; discriminate E|constructor; exact I]. }
  split; [|split; [|split]].
  - repeat (constructor; [cbn; intuition congruence|]). constructor.
  - constructor; [split; [reflexivity|]|constructor; [split; [reflexivity|]|constructor; [split; [reflexivity|]|constructor]]];
      cbn [fst snd annotation_means].
    + eapply res_ref; [reflexivity|apply means_name; reflexivity|reflexivity|intros ? E; discriminate E|constructor; exact I].
    + eapply res_ref; [reflexivity| |reflexivity| |].
      * apply (means_op demo_lang _ OSub [XName "Optional"; XText "Node"] [VObj 1; VText "Node"]); [|reflexivity].
        constructor; [apply means_name; reflexivity|]. constructor; [constructor|constructor].
      * intros ? E; discriminate E.
      * eapply res_alias; [cbn; tauto| |reflexivity]. constructor; [exact N|constructor].
    + eapply res_alias; [cbn; tauto| |reflexivity]. constructor; [exact N'|]. constructor; [constructor; exact I|constructor].
  - constructor; [constructor; [split; [reflexivity|]|constructor; [split; [reflexivity|]|constructor]]|
                  constructor; [constructor; [split; [reflexivity|]|constructor]|constructor]];
      cbn [fst snd annotation_means];
      (eapply res_ref; [reflexivity|apply means_name; reflexivity|reflexivity|intros ? E; discriminate E|constructor; exact I]).
  - vm_compute. reflexivity.
Qed.

(** quoting the built-in name and leaving the rest as it is *)
Example c120_quoted_case :
  let c := PyClass "A" "A" (VObj 11) 0 [("x", VObj 0); ("y", VAlias 1 [VRef (Some 4) "Node"])] in
  all_mean demo_lang (PyClass "Node" "Node" (VObj 11) 0 (k_anns c)) c (demo_modules 0) [("x", VObj 0); ("y", VAlias 1 [VObj 11])] /\
  visible demo_lang [] (demo_modules 0) "int" = bound demo_lang c (demo_modules 0) "int" /\
  fst (class_hints demo_lang 9 demo_modules (PyClass "Node" "Node" (VObj 11) 0 (k_anns c)) [record_base] (fun _ => None)) =
  fst (class_hints demo_lang 9 demo_modules (PyClass "Node" "Node" (VObj 11) 0
    [("x", VText "int"); ("y", VText "Optional['Node']")]) [record_base] (fun _ => None)).
Proof.
  split; [|split; [reflexivity|vm_compute; reflexivity]].
  constructor; [split; [reflexivity|]; constructor; exact I|]. constructor; [split; [reflexivity|]; cbn [fst snd annotation_means]|constructor].
  eapply res_alias; [cbn; tauto| |reflexivity]. constructor; [|constructor].
  eapply res_ref; [reflexivity|apply means_name; reflexivity|reflexivity|intros ? E; discriminate E|constructor; exact I].
Qed.

(** a class called date with a field of the module's date; names that are not bound *)
Example c120_names_case :
  fst (class_hints demo_lang 9 demo_modules (PyClass "date" "date" (VObj 12) 0 [("d", VObj 5)]) [record_base] (fun _ => None)) = Ok [("d", VObj 5)] /\
  fst (class_hints demo_lang 9 demo_modules (PyClass "date" "date" (VObj 12) 0 [("d", VText "date")]) [record_base] (fun _ => None)) = Ok [("d", VObj 12)] /\
  fst (class_hints demo_lang 9 demo_modules (PyClass "A" "f.A" (VObj 12) 0 [("d", VText "Local")]) [record_base] (fun _ => None)) =
    Raise (mkexc NameError "Local").
Proof. vm_compute. auto. Qed.

(** Optional['Node'] in two modules is one object.  The forward reference in it is resolved for
    the Node of one module; for the class of the other it means the other Node.  Without
    localns it would mean the first one again. *)
Definition node2 : pyclass nat := PyClass "Node" "Node" (VObj 30) 2 [("next", VAlias 1 [VRef (Some 4) "Node"])].
Definition after_node : memory nat := snd (class_hints demo_lang 9 demo_modules node [record_base] (fun _ => None)).
Example c121_case :
  after_node 4 = Some (VObj 10) /\
  fst (class_hints demo_lang 9 demo_modules node2 [record_base] after_node) = Ok [("next", VAlias 1 [VObj 30])] /\
  fst (get_type_hints demo_lang 9 None (fun i => match i with 1 => demo_modules 1 | _ => [("Node", VObj 30)] end) [node2] after_node) =
    Ok [("next", VAlias 1 [VObj 10])].
Proof. vm_compute. auto. Qed.

(** a mixin that imports a name for type checkers only; annotations of other types *)
Definition lazy_mixin : pyclass nat := PyClass "Lazy" "Lazy" (VObj 22) 0 [("cache", VText "Cache")].
Example c122_case :
  bound demo_lang node (demo_modules 0) "Cache" = None /\
  fst (class_hints demo_lang 9 demo_modules node [lazy_mixin; record_base] (fun _ => None)) = Raise (mkexc NameError "Cache") /\
  fst (class_hints demo_lang 9 demo_modules node [PyClass "Mixin" "Mixin" (VObj 21) 2 [("next", VText "int"); ("b", VObj 3)]; record_base] (fun _ => None)) =
  fst (class_hints demo_lang 9 demo_modules node [mixin; record_base] (fun _ => None)).
Proof. vm_compute. auto. Qed.

(** a class in a function that refers to itself, its subclass, and a class in another class *)
Example c123_case :
  fst (class_hints demo_lang 9 demo_modules (PyClass "Node" "f.<locals>.Node" (VObj 13) 0 [("next", VText "Optional['Node']"); ("root", VText "Node")]) [record_base] (fun _ => None)) =
    Ok [("next", VAlias 1 [VObj 13]); ("root", VObj 13)] /\
  fst (class_hints demo_lang 9 demo_modules (PyClass "Leaf" "f.<locals>.Leaf" (VObj 14) 0 [("x", VText "int")])
    [PyClass "Node" "f.<locals>.Node" (VObj 13) 0 [("next", VText "Optional['Node']"); ("root", VText "Node")]; record_base] (fun _ => None)) =
    Raise (mkexc NameError "Node") /\
  fst (class_hints demo_lang 9 demo_modules (PyClass "Inner" "Outer.Inner" (VObj 15) 0 [("x", VText "Outer.Inner")]) [record_base] (fun _ => None)) =
    Raise (mkexc NameError "Outer").
Proof. vm_compute. auto. Qed.
