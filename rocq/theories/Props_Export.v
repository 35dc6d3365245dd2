(** Props_Export.v -- property theorems: exporting records with arguments and Selects, and rebuilding them
    Each theorem is closed by the lemma of the same statement in Export_main.v; the examples
    show that concrete, non-trivial cases meet the hypotheses. *)

From Verif Require Import Base Py Select Spec_Select Filler Classes Spec_Classes Runtime Record Spec_Record Spec_Inst Spec_Copy Select_main Demo DemoRt DemoCls.
From Verif Require Dict_proofs Select_proofs Select_proofs2 Filler_proofs Classes_proofs Record_proofs Classes_main Inst_proofs Inst_main Copy_proofs Copy_main Props_Copy.
Open Scope string_scope.
Open Scope list_scope.

From Verif Require Import Export_main.

(** C36 with export arguments: whatever include_defaults, sort, whitelist_keys and
    blacklist_tags are, as long as the blacklist hides nothing but values that equal
    their default, p.to_dict(...) can be passed to from_mapping, which gives a new record
    equal to p. *)
Theorem c36_arguments : forall {obj ty W} (R : Rt obj ty W) ctx D eqb hf n c w x i a black,
  made (rt_py R) c -> accepts R ctx c (fieldwise eqb c i) -> fields_callable c ->
  instance_of R ctx c w x i -> comparable R D eqb hf c i -> stored_fixed R c i ->
  e_black a = BlackSet black -> hides_only_defaults eqb a black c i ->
  exists d, to_dict R ctx x a sel_empty w = (Ok d, w) /\
    forall m, is_mapping R m d ->
    exists y w', from_mapping R (S n) c sel_empty [m] [] w = (Ok y, w') /\ equal_copy R ctx c w w' x y.
Proof. exact (@c36_arguments_proof). Qed.
Print Assumptions c36_arguments.

(** C37 for records: exporting under new names and building from the result under the
    inverse renaming gives a new record equal to the exported one.  The renamed fields have
    to be exported, see C108. *)
Theorem c37_records : forall {obj ty W} (R : Rt obj ty W) ctx D eqb hf n c w x i a black r,
  made (rt_py R) c -> accepts R ctx c (fieldwise eqb c i) -> fields_callable c ->
  instance_of R ctx c w x i -> comparable R D eqb hf c i -> stored_fixed R c i ->
  e_black a = BlackSet black -> hides_only_defaults eqb a black c i ->
  NoDup (map fst r) -> NoDup (map snd r) -> (forall k, In k (map snd r) -> ~ In k (keys (c_fields c))) ->
  (forall k, In k (map fst r) -> exists f v, dget k (c_fields c) = Some f /\ dget k (i_dict i) = Some v /\ to_export eqb a black k f v) ->
  exists d, to_dict R ctx x a (renaming r) w = (Ok d, w) /\
    (forall old new, In (old, new) r -> dget new d = dget old (i_dict i) /\ dget old d = None) /\
    forall m, is_mapping R m d ->
    exists y w', from_mapping R (S n) c (renaming (map swap r)) [m] [] w = (Ok y, w') /\ equal_copy R ctx c w w' x y.
Proof. exact (@c37_records_proof). Qed.
Print Assumptions c37_records.

(** C108 (what holds): if the fields that a sensible Select removes or renames are exported
    from this record, for instance because include_defaults is true and nothing is
    blacklisted, then exporting with the Select succeeds, and the result has exactly the
    exported values, each under its new name. *)
Theorem c108_selected_partial : forall {obj ty W} (R : Rt obj ty W) ctx D eqb c w x i a black ks r,
  made (rt_py R) c -> instance_of R ctx c w x i -> has_eq R D eqb -> defaults_in D c -> values_in D c i ->
  e_black a = BlackSet black -> sensible c ks r ->
  (forall k f v, In k (ks ++ map fst r) -> dget k (c_fields c) = Some f -> dget k (i_dict i) = Some v -> to_export eqb a black k f v) ->
  exists d, to_dict R ctx x a (selecting ks r) w = (Ok d, w) /\ dict_ok d /\
    (forall k, In k (ks ++ map fst r) -> dget k d = None) /\
    (forall old new, In (old, new) r -> dget new d = dget old (i_dict i)) /\
    (forall k v, ~ In k (ks ++ map fst r) -> ~ In k (map snd r) ->
       (dget k d = Some v <-> exists f, dget k (c_fields c) = Some f /\ dget k (i_dict i) = Some v /\ to_export eqb a black k f v)).
Proof. exact (@c108_selected_partial_proof). Qed.
Print Assumptions c108_selected_partial.

(** C108 (what holds): in particular, with include_defaults=True and no blacklist a sensible
    Select works for every record of the class. *)
Theorem c108_include_defaults_partial : forall {obj ty W} (R : Rt obj ty W) ctx D eqb c w x i s white ks r,
  made (rt_py R) c -> instance_of R ctx c w x i -> has_eq R D eqb -> defaults_in D c -> values_in D c i -> sensible c ks r ->
  exists d, to_dict R ctx x (ExportArgs true s (BlackSet []) white) (selecting ks r) w = (Ok d, w) /\
    (forall k, In k (ks ++ map fst r) -> dget k d = None) /\
    (forall old new, In (old, new) r -> dget new d = dget old (i_dict i)) /\
    (forall k, In k (keys (c_fields c)) -> ~ In k (ks ++ map fst r) -> dget k d = dget k (i_dict i)).
Proof. exact (@c108_include_defaults_partial_proof). Qed.
Print Assumptions c108_include_defaults_partial.

(** C108 fails by default: of any class with a default, whenever the value of the field
    equals the default, exporting without include_defaults under a new name for the field,
    or without the field, is a KeyError: the value has been left out before the Select is
    applied. *)
Theorem c108_default_refuted : forall {obj ty W} (R : Rt obj ty W) ctx D eqb c w x i a black k f v d new,
  made (rt_py R) c -> instance_of R ctx c w x i -> has_eq R D eqb -> defaults_in D c -> values_in D c i ->
  e_black a = BlackSet black -> e_defaults a = false -> ~ In k (e_white a) ->
  dget k (c_fields c) = Some f -> f_default f = DefVal d -> dget k (i_dict i) = Some v -> eqb d v = true ->
  ~ In new (keys (c_fields c)) ->
  to_dict R ctx x a (selecting [] [(k, new)]) w = (Raise (mkexc KeyError k), w) /\
  to_dict R ctx x a (selecting [k] []) w = (Raise (mkexc KeyError k), w).
Proof. exact (@c108_default_refuted_proof). Qed.
Print Assumptions c108_default_refuted.

Import Props_Copy.
Definition all_args : export_args := ExportArgs true SortDesc (BlackSet [7]) ["x"].
Lemma pair_hides : forall fz b a, hides_only_defaults dlit_eq a [7] (made_of (pair_decl fz)) (pair_inst b SNone).
Proof.
  intros fz b a k f v t EF _ HT _. exfalso. destruct fz; cbn in EF; (destruct (String.eqb k "x"); [injection EF as <-; destruct HT|]);
  (destruct (String.eqb k "y"); [injection EF as <-; destruct HT|discriminate]).
Qed.
Example c36_arguments_case : forall fz b, exists d,
  to_dict (demo_rt 0) (pair_ctx fz) (DRef (TRec 0) 0) all_args sel_empty (pair_state b SNone) = (Ok d, pair_state b SNone) /\
  forall m, is_mapping (demo_rt 0) m d -> exists y w', from_mapping (demo_rt 0) 1 (made_of (pair_decl fz)) sel_empty [m] [] (pair_state b SNone) = (Ok y, w') /\
    equal_copy (demo_rt 0) (pair_ctx fz) (made_of (pair_decl fz)) (pair_state b SNone) w' (DRef (TRec 0) 0) y.
Proof.
  intros fz b. exact (c36_arguments (demo_rt 0) _ _ _ _ 0 _ _ _ _ all_args [7] (pair_made fz) (pair_post fz b) (pair_callable fz) (pair_instance fz b SNone) (pair_comparable fz b) (pair_fixed fz b) eq_refl (pair_hides fz b all_args)).
Qed.
Example c36_arguments_items : fst (to_dict (demo_rt 0) (pair_ctx true) (DRef (TRec 0) 0) all_args sel_empty (pair_state 0 SNone)) = Ok [("y", DInt 0); ("x", DInt 5)].
Proof. reflexivity. Qed.
(** x is renamed to ex and back *)
Example c37_records_case : forall fz b, exists d,
  to_dict (demo_rt 0) (pair_ctx fz) (DRef (TRec 0) 0) no_args (renaming [("x", "ex")]) (pair_state b SNone) = (Ok d, pair_state b SNone) /\
  dget "ex" d = Some (DInt 5) /\
  forall m, is_mapping (demo_rt 0) m d -> exists y w', from_mapping (demo_rt 0) 1 (made_of (pair_decl fz)) (renaming [("ex", "x")]) [m] [] (pair_state b SNone) = (Ok y, w') /\
    equal_copy (demo_rt 0) (pair_ctx fz) (made_of (pair_decl fz)) (pair_state b SNone) w' (DRef (TRec 0) 0) y.
Proof.
  intros fz b. destruct (c37_records (demo_rt 0) (pair_ctx fz) _ _ _ 0 _ (pair_state b SNone) (DRef (TRec 0) 0) _ no_args [] [("x", "ex")]
    (pair_made fz) (pair_post fz b) (pair_callable fz) (pair_instance fz b SNone) (pair_comparable fz b) (pair_fixed fz b) eq_refl) as (d & H1 & H2 & H3).
  - intros ? ? ? ? _ _ _ [].
  - repeat constructor; simpl; tauto.
  - repeat constructor; simpl; tauto.
  - intros k [<-|[]]. destruct fz; cbn; intuition discriminate.
  - intros k [<-|[]]. destruct fz; eexists; eexists; (split; [reflexivity|]; split; [reflexivity|]; right; split; [intros ? []|right; intros ? ?; discriminate]).
  - exists d. split; [assumption|]. split; [exact (proj1 (H2 "x" "ex" (or_introl eq_refl)))|]. exact H3.
Qed.
(** y equals its default: it cannot be renamed or removed by name, unless defaults are included *)
Example c108_case :
  fst (to_dict (demo_rt 0) (pair_ctx true) (DRef (TRec 0) 0) no_args (selecting [] [("y", "why")]) (pair_state 0 SNone)) = Raise (mkexc KeyError "y") /\
  fst (to_dict (demo_rt 0) (pair_ctx true) (DRef (TRec 0) 0) no_args (selecting [] [("y", "why")]) (pair_state 1 SNone)) = Ok [("x", DInt 5); ("why", DInt 1)] /\
  exists d, to_dict (demo_rt 0) (pair_ctx true) (DRef (TRec 0) 0) (ExportArgs true SortNone (BlackSet []) []) (selecting ["x"] [("y", "why")]) (pair_state 0 SNone)
    = (Ok d, pair_state 0 SNone) /\ dget "why" d = Some (DInt 0).
Proof.
  split; [|split; [reflexivity|]].
  - rewrite (proj1 (c108_default_refuted (demo_rt 0) (pair_ctx true) int_values dlit_eq (made_of (pair_decl true)) (pair_state 0 SNone) (DRef (TRec 0) 0) (pair_inst 0 SNone)
      no_args [] "y" _ (DInt 0) (DInt 0) "why" (pair_made true) (pair_instance true 0%Z SNone) (proj1 (pair_comparable true 0%Z)) (proj1 (proj2 (proj2 (pair_comparable true 0%Z))))
      (proj1 (proj2 (proj2 (proj2 (pair_comparable true 0%Z))))) eq_refl eq_refl (fun H => H) eq_refl eq_refl eq_refl eq_refl
      ltac:(cbn; intuition discriminate))). reflexivity.
  - destruct (c108_include_defaults_partial (demo_rt 0) (pair_ctx true) int_values dlit_eq (made_of (pair_decl true)) (pair_state 0 SNone) (DRef (TRec 0) 0) (pair_inst 0 SNone)
      SortNone [] ["x"] [("y", "why")] (pair_made true) (pair_instance true 0%Z SNone) (proj1 (pair_comparable true 0%Z)) (proj1 (proj2 (proj2 (pair_comparable true 0%Z))))
      (proj1 (proj2 (proj2 (proj2 (pair_comparable true 0%Z)))))) as (d & H1 & _ & H2 & _).
    + split; [repeat constructor; simpl; intuition discriminate|]. split; [repeat constructor; simpl; tauto|].
      split; [intros k [<-|[<-|[]]]; cbn; tauto|intros k [<-|[]]; cbn; intuition discriminate].
    + exists d. split; [assumption|]. rewrite (H2 "y" "why" (or_introl eq_refl)). reflexivity.
Qed.
