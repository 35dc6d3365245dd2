(** Props_Compat.v -- property theorems: annotations on the supported versions of Python
    Each theorem is closed by the lemma of the same statement in Compat_main.v; the examples
    show that concrete, non-trivial cases meet the hypotheses. *)

From Verif Require Import Base Py Filler Hints Names Compat Spec_Compat Demo DemoTyping.
Open Scope string_scope.
Open Scope list_scope.

From Verif Require Import Compat_main.

(** C132, 3.9 and later: every annotation is read as it is meant. *)
Theorem c132_current : forall {obj ty W} (P : Py obj ty W) T names (w : @written obj ty W) fuel,
  fits names V39 w -> depth w < fuel ->
  exists y, meaning names fuel V39 w = Ok y /\ hint_of P T y = hint_of P T (intended names w).
Proof. exact (@c132_current_proof). Qed.
Print Assumptions c132_current.

(** C132, all versions: annotations that can be written in two versions make the same fillers
    in both, namely those meant, if no Annotated is in an Annotated, and no text. *)
Theorem c132_versions_partial : forall {obj ty W} (P : Py obj ty W) T names v v' (w : @written obj ty W) fuel,
  fits names v w -> fits names v' w -> depth w < fuel ->
  exists y y', meaning names fuel v w = Ok y /\ meaning names fuel v' w = Ok y' /\
    hint_of P T y = hint_of P T y' /\ hint_of P T y = hint_of P T (intended names w).
Proof. exact (@c132_versions_partial_proof). Qed.
Print Assumptions c132_versions_partial.

Definition case_names (s : string) : option dty := if String.eqb s "A" then Some TInt else None.
(** Dict[str, Union[List, 'A', Annotated[Tuple[int, ...], strict]]] *)
Definition c132_hint : @written dobj dty demo_state :=
  WAlias TDict [WClass TStr; WUnion [WBare TList 1; WText "A"; WAnn (WAlias TTuple [WClass TInt; WEllipsis]) [MStyle SStrict]]].
Example c132_case : fits case_names V37 c132_hint /\ fits case_names V38 c132_hint /\ fits case_names V39 c132_hint /\
  meaning case_names 5 V37 c132_hint <> meaning case_names 5 V39 c132_hint /\
  exists y, meaning case_names 5 V37 c132_hint = Ok y /\
    hint_of typed0 typing0 y = hint_of typed0 typing0 (YAlias TDict [YClass TStr; YUnion [YAlias TList []; YClass TInt; YAnn (YAlias TTuple [YClass TInt; YEllipsis]) [MStyle SStrict]]]).
Proof.
  split; [cbn; repeat split; try discriminate; right; repeat split|]. split; [cbn; repeat split; try discriminate; right; repeat split|].
  split; [cbn; repeat split; try discriminate; left; reflexivity|]. split; [vm_compute; discriminate|]. eexists. split; reflexivity.
Qed.

(** C132 does not hold for Annotated of Annotated: in 3.7 and 3.8 the class cannot be created. *)
Theorem c132_nested_refuted : forall {obj ty W} (P : Py obj ty W) T names v t (m m' : @meta obj ty W) dflt,
  let w := WAnn (WAnn (WClass t) [m]) [m'] in
  v <> V39 ->
  fits names V39 w /\
  (exists y, meaning names 1 V39 w = Ok y /\ hint_of P T y = hint_of P T (YAnn (YClass t) [m; m'])) /\
  exists y, meaning names 1 v w = Ok y /\ exists msg, make_filler P dflt (hint_of P T y) [] = Raise (Exc TypeError msg None).
Proof. exact (@c132_nested_refuted_proof). Qed.
Print Assumptions c132_nested_refuted.

(** C132 does not hold for text in Annotated: in 3.7 and 3.8 it stays text, and
    the class cannot be created. *)
Theorem c132_text_refuted : forall {obj ty W} (P : Py obj ty W) T names v s t (m : @meta obj ty W) dflt,
  let w := WAnn (WText s) [m] in
  v <> V39 -> names s = Some t ->
  fits names V39 w /\
  (exists y, meaning names 1 V39 w = Ok y /\ hint_of P T y = hint_of P T (YAnn (YClass t) [m])) /\
  exists y, meaning names 1 v w = Ok y /\ exists msg, make_filler P dflt (hint_of P T y) [] = Raise (Exc TypeError msg None).
Proof. exact (@c132_text_refuted_proof). Qed.
Print Assumptions c132_text_refuted.

(** C132, 3.7 and 3.8: what both can express they read alike, meant or not. *)
Theorem c132_old_versions : forall {obj ty W} names (w : @written obj ty W) o o' fuel,
  make V37 w = Ok o -> type_hint names o = Ok o' ->
  make V38 w = Ok o /\ seen fuel V37 o' = seen fuel V38 o'.
Proof. exact (@c132_old_versions_proof). Qed.
Print Assumptions c132_old_versions.
