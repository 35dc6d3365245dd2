(** Props_Select.v -- property theorems: Select (records/select.py)
    Each theorem is closed by the lemma of the same statement in Select_main.v; the examples
    show that concrete, non-trivial cases meet the hypotheses. *)

From Verif Require Import Base Dict_proofs Select Spec_Select Select_proofs Select_proofs2.
Open Scope string_scope.
Open Scope list_scope.

From Verif Require Import Select_main.

(** C42/C43: applying a Select does exactly the documented edits, in order;
    KeyError exactly when a strict removal or rename finds its key missing,
    ValueError exactly when a rename or add target exists. *)
Theorem c42_select_refines_spec :
  forall (A : Type) (s : sel A) (d : dict A), reachable s -> dict_ok d ->
  match edits (documented_edits s) (fun k => dget k d) with
  | Done m => exists d', sel_apply s d = Ok d' /\ dict_ok d' /\ forall k, dget k d' = m k
  | Missing k => sel_apply s d = Raise (mkexc KeyError k)
  | Occupied k => sel_apply s d = Raise (mkexc ValueError ("key " ++ k ++ " cannot be overridden in map"))
  end.
Proof. exact (@c42_select_refines_spec_proof). Qed.
Print Assumptions c42_select_refines_spec.

(** C42: keys the Select does not mention are untouched. *)
Theorem c42_frame :
  forall (A : Type) (s : sel A) (d d' : dict A) (k : string),
  reachable s -> dict_ok d -> sel_apply s d = Ok d' -> ~ In k (mentioned s) -> dget k d' = dget k d.
Proof. exact (@c42_frame_proof). Qed.
Print Assumptions c42_frame.

(** C42: a removed key that is not written again is gone. *)
Theorem c42_removed_are_gone :
  forall (A : Type) (s : sel A) (d d' : dict A) (k : string),
  reachable s -> dict_ok d -> sel_apply s d = Ok d' ->
  In k (removed s) -> ~ In k (targets s) -> ~ In k (added s) -> dget k d' = None.
Proof. exact (@c42_removed_are_gone_proof). Qed.
Print Assumptions c42_removed_are_gone.

(** C42: a strict rename moves the value of the old key to the new key (if no
    other rename feeds the old key or takes the new one away). *)
Theorem c42_renamed :
  forall (A : Type) (s : sel A) (d d' : dict A) (old new : string),
  reachable s -> dict_ok d -> sel_apply s d = Ok d' ->
  In (old, new) (elements (s_ren s)) -> ~ In old (targets s) -> ~ In new (sources s) ->
  (exists v, dget old d = Some v /\ dget new d' = Some v) /\ (~ In old (added s) -> dget old d' = None).
Proof. exact (@c42_renamed_proof). Qed.
Print Assumptions c42_renamed.

(** C42: an optional rename moves the value if the old key exists and does
    nothing otherwise. *)
Theorem c42_maybe_renamed :
  forall (A : Type) (s : sel A) (d d' : dict A) (old new : string),
  reachable s -> dict_ok d -> sel_apply s d = Ok d' ->
  In (old, new) (elements (s_mren s)) -> old <> new ->
  ~ In old (removed s) -> ~ In old (map fst (elements (s_ren s))) -> ~ In old (targets s) ->
  ~ In new (removed s) -> ~ In new (sources s) -> ~ In new (map snd (elements (s_ren s))) -> ~ In new (added s) ->
  (forall x, In x (elements (s_mren s)) -> fst x = old \/ snd x = new -> x = (old, new)) ->
  match dget old d with
  | Some v => dget new d' = Some v
  | None => dget new d' = dget new d
  end.
Proof. exact (@c42_maybe_renamed_proof). Qed.
Print Assumptions c42_maybe_renamed.

(** C42: an added key carries the added value. *)
Theorem c42_added :
  forall (A : Type) (s : sel A) (d d' : dict A) (k : string) (v : A),
  reachable s -> dict_ok d -> sel_apply s d = Ok d' -> In (k, v) (elements (s_add s)) -> dget k d' = Some v.
Proof. exact (@c42_added_proof). Qed.
Print Assumptions c42_added.

(** C42: a maybe-added key keeps the value it had, and gets the new value if it
    had none. *)
Theorem c42_maybe_added :
  forall (A : Type) (s : sel A) (d d' : dict A) (k : string) (v : A),
  reachable s -> dict_ok d -> sel_apply s d = Ok d' ->
  dget k (elements (s_madd s)) = Some v ->
  ~ In k (removed s) -> ~ In k (sources s) -> ~ In k (targets s) -> ~ In k (keys (elements (s_add s))) ->
  dget k d' = match dget k d with Some x => Some x | None => Some v end.
Proof. exact (@c42_maybe_added_proof). Qed.
Print Assumptions c42_maybe_added.

(** C43: no existing key is ever overwritten: a key that is neither removed nor
    renamed away keeps the value it had. *)
Theorem c43_never_overwrites :
  forall (A : Type) (s : sel A) (d d' : dict A) (k : string) (v : A),
  reachable s -> dict_ok d -> sel_apply s d = Ok d' ->
  dget k d = Some v -> ~ In k (removed s) -> ~ In k (sources s) -> dget k d' = Some v.
Proof. exact (@c43_never_overwrites_proof). Qed.
Print Assumptions c43_never_overwrites.

(** C43: the three first-edit error cases, spelled out: removing or renaming a
    missing key is a KeyError, and renaming onto or adding an existing key is a
    ValueError. *)
Theorem c43_errors :
  forall (A : Type) (d : dict A) (k n : string) (v : A), dict_ok d ->
  (dget k d = None -> sel_apply (sel_init (PMap []) (PMap []) (NStr k) (NIter (Reiter [])) (PMap []) (PMap [])) d
                      = Raise (mkexc KeyError k)) /\
  (dget n d = None -> dget k d = None ->
   sel_apply (sel_init (PMap []) (PMap []) (NIter (Reiter [])) (NIter (Reiter [])) (PMap [(k, n)]) (PMap [])) d
   = Raise (mkexc KeyError k)) /\
  (dget n d <> None ->
   sel_apply (sel_init (PMap []) (PMap []) (NIter (Reiter [])) (NIter (Reiter [])) (PMap [(k, n)]) (PMap [])) d
   = Raise (mkexc ValueError ("key " ++ n ++ " cannot be overridden in map"))) /\
  (dget k d <> None ->
   sel_apply (sel_init (PMap [(k, v)]) (PMap []) (NIter (Reiter [])) (NIter (Reiter [])) (PMap []) (PMap [])) d
   = Raise (mkexc ValueError ("key " ++ k ++ " cannot be overridden in map"))).
Proof. exact (@c43_errors_proof). Qed.
Print Assumptions c43_errors.

(** C44: merging is associative (same lists of edits, hence same effect). *)
Theorem c44_merge_assoc :
  forall (A : Type) (s t u : sel A) (d : dict A), reachable s -> reachable t -> reachable u ->
  sel_apply (fst (sel_merge2 (fst (sel_merge2 s t)) u)) d = sel_apply (fst (sel_merge2 s (fst (sel_merge2 t u)))) d.
Proof. exact (@c44_merge_assoc_proof). Qed.
Print Assumptions c44_merge_assoc.

(** C44: Select.empty is the identity of merge on both sides. *)
Theorem c44_merge_empty :
  forall (A : Type) (s : sel A) (d : dict A), reachable s ->
  sel_apply (fst (sel_merge2 sel_empty s)) d = sel_apply s d /\
  sel_apply (fst (sel_merge2 s sel_empty)) d = sel_apply s d.
Proof. exact (@c44_merge_empty_proof). Qed.
Print Assumptions c44_merge_empty.

(** C44: merge() without arguments raises a TypeError; with arguments it gives a Select. *)
Theorem c44_merge_nothing : forall (A : Type) (s : sel A) (others : list (sel A)) (kw : option (sel A)),
  (others = [] /\ kw = None -> exists m, sel_merge s others kw = Raise (mkexc TypeError m)) /\
  (others <> [] \/ kw <> None -> exists r, sel_merge s others kw = Ok r).
Proof. exact (@c44_merge_nothing_proof). Qed.
Print Assumptions c44_merge_nothing.

(** C44: s.merge(o1, ..., on, **kw) is the left fold of pairwise merges, so its
    edits are those of all arguments, kind by kind, in argument order. *)
Theorem c44_merge_is_fold :
  forall (A : Type) (s r : sel A) (others : list (sel A)) (kw : option (sel A)),
  reachable s -> Forall reachable others -> (forall k, kw = Some k -> reachable k) ->
  sel_merge s others kw = Ok r ->
  let all := s :: others ++ match kw with Some k => [k] | None => [] end in
  lists r = (flat_map (fun t => elements (s_rem t)) all, flat_map (fun t => elements (s_mrem t)) all,
             flat_map (fun t => elements (s_ren t)) all, flat_map (fun t => elements (s_mren t)) all,
             flat_map (fun t => elements (s_add t)) all, flat_map (fun t => elements (s_madd t)) all)
  /\ reachable r.
Proof. exact (@c44_merge_is_fold_proof). Qed.
Print Assumptions c44_merge_is_fold.

(** C44: a Select without any edits leaves every mapping untouched. *)
Theorem c44_empty_select_is_noop :
  forall (A : Type) (s : sel A) (d : dict A), reachable s -> mentioned s = [] -> sel_apply s d = Ok d.
Proof. exact (@c44_empty_select_is_noop_proof). Qed.
Print Assumptions c44_empty_select_is_noop.

(** C45 (what holds, the exact boundary of the argument): merging reorders only
    pairs made of an edit of the first Select and an edit of the second that
    belongs to an earlier phase.  If such pairs are about different keys, then
    applying the merge succeeds iff applying one Select after the other does, with
    the same resulting mapping; keys may be shared freely by all other pairs, so
    for instance two Selects that only remove keys, or a removing Select followed by any
    Select, always merge soundly.  Missing: pairs out of order on a common key,
    see the refutation. *)
Theorem c45_in_order_partial :
  forall (A : Type) (s t : sel A) (d : dict A), reachable s -> reachable t -> dict_ok d ->
  (forall e e', In e (documented_edits s) -> In e' (documented_edits t) -> phase e' < phase e ->
                forall k, In k (mentions e) -> In k (mentions e') -> False) ->
  match sel_apply (fst (sel_merge2 s t)) d, (do d1 <- sel_apply s d; sel_apply t d1) with
  | Ok d1, Ok d2 => forall k, dget k d1 = dget k d2
  | Raise _, Raise _ => True
  | _, _ => False
  end.
Proof. exact (@c45_in_order_partial_proof). Qed.
Print Assumptions c45_in_order_partial.

(** C45 (what holds): if two Selects mention no common key, applying their
    merge succeeds iff applying one after the other does, with the same
    resulting mapping.  Missing: Selects that share keys, see the refutation. *)
Theorem c45_merge_is_sequential_partial :
  forall (A : Type) (s t : sel A) (d : dict A), reachable s -> reachable t -> dict_ok d ->
  (forall k, In k (mentioned s) -> In k (mentioned t) -> False) ->
  match sel_apply (fst (sel_merge2 s t)) d, (do d1 <- sel_apply s d; sel_apply t d1) with
  | Ok d1, Ok d2 => forall k, dget k d1 = dget k d2
  | Raise _, Raise _ => True
  | _, _ => False
  end.
Proof. exact (@c45_merge_is_sequential_partial_proof). Qed.
Print Assumptions c45_merge_is_sequential_partial.

(** C45, an instance used in practice: after a Select that only removes keys, any
    other Select may be merged in, whatever keys it is about. *)
Theorem c45_after_removing_partial :
  forall (A : Type) (s t : sel A) (d : dict A), reachable s -> reachable t -> dict_ok d ->
  (forall e, In e (documented_edits s) -> exists k, e = Remove k) ->
  match sel_apply (fst (sel_merge2 s t)) d, (do d1 <- sel_apply s d; sel_apply t d1) with
  | Ok d1, Ok d2 => forall k, dget k d1 = dget k d2
  | Raise _, Raise _ => True
  | _, _ => False
  end.
Proof. exact (@c45_after_removing_partial_proof). Qed.
Print Assumptions c45_after_removing_partial.

(** C45 is false in general: x.select(add k).select(remove k) is not "add, then
    remove": the merged Select removes first and fails with KeyError. *)
Theorem c45_merge_is_sequential_refuted :
  exists (s t : sel nat) (d d2 : dict nat), reachable s /\ reachable t /\ dict_ok d /\
  (do d1 <- sel_apply s d; sel_apply t d1) = Ok d2 /\
  sel_apply (fst (sel_merge2 s t)) d = Raise (mkexc KeyError "k").
Proof. exact (@c45_merge_is_sequential_refuted_proof). Qed.
Print Assumptions c45_merge_is_sequential_refuted.

(** C46 fails for factories that return a dict they still own: the Select edits
    that very dict, and a failing Select leaves it half edited. *)
Theorem c46_dict_argument_refuted :
  exists (s : sel nat) (d : dict nat), reachable s /\ dict_ok d /\
  fst (sel_call_mapping s true d) = Raise (mkexc KeyError "z") /\ snd (sel_call_mapping s true d) <> d.
Proof. exact (@c46_dict_argument_refuted_proof). Qed.
Print Assumptions c46_dict_argument_refuted.

(** C47 (what holds): a Select built from re-iterable arguments gives the same
    result however often it, or its truth value, was used before. *)
Theorem c47_reusable_partial :
  forall (A : Type) (s s' : sel A) (d : dict A), reachable s -> used s s' -> sel_apply s' d = sel_apply s d.
Proof. exact (@c47_reusable_partial_proof). Qed.
Print Assumptions c47_reusable_partial.

(** C47 is false for one-shot iterables: testing the truth value of the Select
    eats the first key, and a second use sees nothing at all. *)
Theorem c47_one_shot_refuted :
  let gen := sel_init (PMap []) (PMap []) (NIter (OneShot ["x"; "y"])) (NIter (Reiter [])) (PMap []) (PMap []) in
  let lst := sel_init (PMap []) (PMap []) (NIter (Reiter ["x"; "y"])) (NIter (Reiter [])) (PMap []) (PMap []) in
  let d := [("x", 1); ("y", 2); ("z", 3)] in
  sel_apply lst d = Ok [("z", 3)] /\
  sel_apply gen d = Ok [("x", 1); ("z", 3)] /\
  sel_apply (snd (sel_call gen d)) d = Ok d.
Proof. exact (@c47_one_shot_refuted_proof). Qed.
Print Assumptions c47_one_shot_refuted.

(** C47 is false for one-shot iterables in every argument: the first use passes over the
    first key, and, if it succeeds, later uses do nothing. *)
Theorem c47_generators_refuted : forall (A : Type) (d : dict A),
  (forall (x : string * A) l, let gen := sel_init (PIter (OneShot (x :: l))) (PIter (Reiter [])) (NIter (Reiter [])) (NIter (Reiter [])) (PIter (Reiter [])) (PIter (Reiter [])) in
     sel_apply gen d = sel_apply (sel_init (PIter (Reiter l)) (PIter (Reiter [])) (NIter (Reiter [])) (NIter (Reiter [])) (PIter (Reiter [])) (PIter (Reiter []))) d /\
     (forall d1, sel_apply gen d = Ok d1 -> forall d2, sel_apply (snd (sel_call gen d)) d2 = Ok d2)) /\
  (forall (x : string * A) l, let gen := sel_init (PIter (Reiter [])) (PIter (OneShot (x :: l))) (NIter (Reiter [])) (NIter (Reiter [])) (PIter (Reiter [])) (PIter (Reiter [])) in
     sel_apply gen d = sel_apply (sel_init (PIter (Reiter [])) (PIter (Reiter l)) (NIter (Reiter [])) (NIter (Reiter [])) (PIter (Reiter [])) (PIter (Reiter []))) d /\
     (forall d1, sel_apply gen d = Ok d1 -> forall d2, sel_apply (snd (sel_call gen d)) d2 = Ok d2)) /\
  (forall (x : string) l, let gen := sel_init (PIter (Reiter [])) (PIter (Reiter [])) (NIter (OneShot (x :: l))) (NIter (Reiter [])) (PIter (Reiter [])) (PIter (Reiter [])) in
     sel_apply gen d = sel_apply (sel_init (PIter (Reiter [])) (PIter (Reiter [])) (NIter (Reiter l)) (NIter (Reiter [])) (PIter (Reiter [])) (PIter (Reiter []))) d /\
     (forall d1, sel_apply gen d = Ok d1 -> forall d2, sel_apply (snd (sel_call gen d)) d2 = Ok d2)) /\
  (forall (x : string) l, let gen := sel_init (PIter (Reiter [])) (PIter (Reiter [])) (NIter (Reiter [])) (NIter (OneShot (x :: l))) (PIter (Reiter [])) (PIter (Reiter [])) in
     sel_apply gen d = sel_apply (sel_init (PIter (Reiter [])) (PIter (Reiter [])) (NIter (Reiter [])) (NIter (Reiter l)) (PIter (Reiter [])) (PIter (Reiter []))) d /\
     (forall d1, sel_apply gen d = Ok d1 -> forall d2, sel_apply (snd (sel_call gen d)) d2 = Ok d2)) /\
  (forall (x : string * string) l, let gen := sel_init (PIter (Reiter [])) (PIter (Reiter [])) (NIter (Reiter [])) (NIter (Reiter [])) (PIter (OneShot (x :: l))) (PIter (Reiter [])) in
     sel_apply gen d = sel_apply (sel_init (PIter (Reiter [])) (PIter (Reiter [])) (NIter (Reiter [])) (NIter (Reiter [])) (PIter (Reiter l)) (PIter (Reiter []))) d /\
     (forall d1, sel_apply gen d = Ok d1 -> forall d2, sel_apply (snd (sel_call gen d)) d2 = Ok d2)) /\
  (forall (x : string * string) l, let gen := sel_init (PIter (Reiter [])) (PIter (Reiter [])) (NIter (Reiter [])) (NIter (Reiter [])) (PIter (Reiter [])) (PIter (OneShot (x :: l))) in
     sel_apply gen d = sel_apply (sel_init (PIter (Reiter [])) (PIter (Reiter [])) (NIter (Reiter [])) (NIter (Reiter [])) (PIter (Reiter [])) (PIter (Reiter l))) d /\
     (forall d1, sel_apply gen d = Ok d1 -> forall d2, sel_apply (snd (sel_call gen d)) d2 = Ok d2)).
Proof. exact (@c47_generators_refuted_proof). Qed.
Print Assumptions c47_generators_refuted.

(** C48 is false for every mapping that has both names: keys_to_maybe_rename onto an existing
    name raises ValueError instead of skipping. *)
Theorem c48_maybe_rename_skips_refuted :
  forall (A : Type) (d : dict A) (old new : string), dget old d <> None -> dget new d <> None ->
  sel_apply (sel_init (PMap []) (PMap []) (NIter (Reiter [])) (NIter (Reiter [])) (PMap []) (PMap [(old, new)])) d
  = Raise (mkexc ValueError ("key " ++ new ++ " cannot be overridden in map")).
Proof. exact (@c48_maybe_rename_skips_refuted_proof). Qed.
Print Assumptions c48_maybe_rename_skips_refuted.

(** C48 (what holds): an optional rename whose old name is missing is skipped, whether or not
    the new name exists; one whose old name is there and whose new name is not renames. *)
Theorem c48_maybe_rename_skips_partial :
  forall (A : Type) (d : dict A) (old new : string),
  let s := sel_init (PMap []) (PMap []) (NIter (Reiter [])) (NIter (Reiter [])) (PMap []) (PMap [(old, new)]) in
  (dget old d = None -> sel_apply s d = Ok d) /\
  (forall v, dict_ok d -> dget old d = Some v -> dget new d = None -> exists d', sel_apply s d = Ok d' /\
     dget new d' = Some v /\ dget old d' = None /\ forall k, k <> old -> k <> new -> dget k d' = dget k d).
Proof. exact (@c48_maybe_rename_skips_partial_proof). Qed.
Print Assumptions c48_maybe_rename_skips_partial.

(** C37: renaming existing keys to fresh, distinct names and back restores the
    mapping. *)
Theorem c37_rename_roundtrip :
  forall (A : Type) (r : list (string * string)) (d : dict A), dict_ok d ->
  NoDup (map fst r) -> NoDup (map snd r) ->
  (forall k, In k (map fst r) -> In k (keys d)) ->
  (forall k, In k (map snd r) -> ~ In k (keys d)) ->
  exists d1 d2, sel_apply (renaming r) d = Ok d1 /\ sel_apply (renaming (map swap r)) d1 = Ok d2 /\
    (forall old new, In (old, new) r -> dget new d1 = dget old d) /\
    dict_ok d2 /\ forall k, dget k d2 = dget k d.
Proof. exact (@c37_rename_roundtrip_proof). Qed.
Print Assumptions c37_rename_roundtrip.

(** C35: chained .select() calls on a bound factory act as one merged Select;
    owner and descriptor are kept. *)
Theorem c35_factory_selects_accumulate :
  forall (A D C : Type) (b b1 b2 : bound_factory A D C) (s1 s2 : sel A) (d : dict A),
  reachable (bf_select b) -> reachable s1 -> reachable s2 ->
  bf_do_select b [s1] None = Ok b1 -> bf_do_select b1 [s2] None = Ok b2 ->
  (exists b', bf_do_select b [s1; s2] None = Ok b' /\ sel_apply (bf_select b2) d = sel_apply (bf_select b') d) /\
  (exists b', bf_do_select b [fst (sel_merge2 s1 s2)] None = Ok b' /\ sel_apply (bf_select b2) d = sel_apply (bf_select b') d) /\
  bf_descriptor b2 = bf_descriptor b /\ bf_owner b2 = bf_owner b.
Proof. exact (@c35_factory_selects_accumulate_proof). Qed.
Print Assumptions c35_factory_selects_accumulate.

(** C35: the same for exporters; export_with accumulates positional arguments
    and lets later keywords override earlier ones. *)
Theorem c35_export_with_accumulates :
  forall (A D C X : Type) (b : bound_exporter A D C X) (a1 a2 : list X) (k1 k2 : dict X), dict_ok k1 -> dict_ok k2 ->
  let b2 := be_export_with (be_export_with b a1 k1) a2 k2 in
  be_args b2 = be_args b ++ a1 ++ a2 /\
  (forall k, dget k (be_kwargs b2) =
     match dget k k2 with Some v => Some v | None =>
     match dget k k1 with Some v => Some v | None => dget k (be_kwargs b) end end) /\
  be_select b2 = be_select b /\ be_owner b2 = be_owner b.
Proof. exact (@c35_export_with_accumulates_proof). Qed.
Print Assumptions c35_export_with_accumulates.

(** C35: any chain of .select(...) and .export_with(...) calls on an exporter,
    in any order: the exporter at the end has the same descriptor and owner, all
    positional export arguments in order, for every keyword its last value, and
    its Select does what all the Selects of the chain, merged, do.  So no call
    undoes what another has configured. *)
Theorem c35_exporter_chain :
  forall (A D C X : Type) (d : D) (owner : C) (l : list (config A X)) (b : bound_exporter A D C X) (m : dict A),
  Forall reachable (selects_in l) -> (forall a k, In (Exporting a k) l -> dict_ok k) ->
  configure (be_get d owner) l = Ok b ->
  be_descriptor b = d /\ be_owner b = owner /\ be_args b = args_in l /\
  (forall k, dget k (be_kwargs b) = last_binding k (kwargs_in l)) /\
  (forall s, sel_merge sel_empty (sel_empty :: selects_in l) None = Ok s -> sel_apply (be_select b) m = sel_apply s m).
Proof. exact (@c35_exporter_chain_proof). Qed.
Print Assumptions c35_exporter_chain.

(** C35: a factory or exporter as one gets it from the class or the record has
    nothing configured: its Select is false and changes nothing (so the shortcut
    of a shortcut factory runs), and it has no export arguments. *)
Theorem c35_unconfigured :
  forall (A D C X : Type) (d : D) (owner : C) (m : dict A),
  let f := @bf_get A D C d owner in let b := @be_get A D C X d owner in
  fst (sel_truth (bf_select f)) = false /\ sel_apply (bf_select f) m = Ok m /\
  bf_descriptor f = d /\ bf_owner f = owner /\
  fst (sel_truth (be_select b)) = false /\ sel_apply (be_select b) m = Ok m /\
  be_descriptor b = d /\ be_owner b = owner /\ be_args b = [] /\ be_kwargs b = [].
Proof. exact (@c35_unconfigured_proof). Qed.
Print Assumptions c35_unconfigured.

(** C35: p.to_dict.export_with( *a, **k)( *a', **k') is p.to_dict( *a, *a', **{**k, **k'}):
    a no-argument exporter treats call arguments as export arguments; the other
    exporters pass them to the wrapped function untouched. *)
Theorem c35_noarg_exporter_call :
  forall (A D C X : Type) (b : bound_exporter A D C X) (a a' : list X) (k k' : dict X),
  be_call_args true (be_export_with b a k) a' k' = be_call_args true (be_export_with (be_export_with b a k) a' k') [] []
  /\ be_call_args false b a' k' = ((be_args b, be_kwargs b), (a', k')).
Proof. exact (@c35_noarg_exporter_call_proof). Qed.
Print Assumptions c35_noarg_exporter_call.

(** C35: calling .select() does not change the bound object it is called on, nor
    the Selects passed: they behave as before. *)
Theorem c35_select_leaves_operands :
  forall (A : Type) (s t : sel A) (d : dict A), reachable s -> reachable t ->
  let '(r, (s', t')) := sel_merge2 s t in
  sel_apply s' d = sel_apply s d /\ sel_apply t' d = sel_apply t d.
Proof. exact (@c35_select_leaves_operands_proof). Qed.
Print Assumptions c35_select_leaves_operands.

(** a chain that mixes both kinds of calls *)
Example c35_chain_case :
  let rn := sel_init (PIter (Reiter [])) (PIter (Reiter [])) (NIter (Reiter [])) (NIter (Reiter [])) (PMap [("a", "b")]) (PIter (Reiter [])) in
  let ad := sel_init (PMap [("z", 9)]) (PIter (Reiter [])) (NIter (Reiter [])) (NIter (Reiter [])) (PIter (Reiter [])) (PIter (Reiter [])) in
  exists b, configure (be_get tt "owner") [Exporting [true] [("sort", false)]; Selecting [rn] (Some ad); Exporting [] [("sort", true)]] = Ok b /\
  be_args b = [true] /\ be_kwargs b = [("sort", true)] /\ sel_apply (be_select b) [("a", 1)] = Ok [("b", 1); ("z", 9)].
Proof. eexists. split; [reflexivity|]. repeat split. Qed.

(** A Select that uses all six kinds of edits, on a four-key mapping: meets the
    hypotheses of c42_* and c43_never_overwrites. *)
Definition demo_select : sel nat :=
  sel_init (PMap [("n", 10)]) (PIter (Reiter [("k", 11); ("m", 12)])) (NStr "a") (NIter (Reiter ["zz"]))
           (PMap [("b", "c")]) (PIter (Reiter [("d", "e"); ("q", "r")])).
Definition demo_map : dict nat := [("a", 1); ("b", 2); ("d", 3); ("k", 4)].

Example demo_select_reachable : reachable demo_select /\ dict_ok demo_map.
Proof.
  split.
  - constructor. repeat split; reflexivity.
  - repeat constructor; simpl; intuition discriminate.
Qed.
Example demo_select_runs :
  sel_apply demo_select demo_map = Ok [("k", 4); ("c", 2); ("e", 3); ("n", 10); ("m", 12)].
Proof. vm_compute. reflexivity. Qed.
Example demo_select_hyps :
  In ("b", "c") (elements (s_ren demo_select)) /\ ~ In "b" (targets demo_select) /\ ~ In "c" (sources demo_select)
  /\ In ("d", "e") (elements (s_mren demo_select)) /\ ~ In "d" (targets demo_select)
  /\ dget "m" (elements (s_madd demo_select)) = Some 12 /\ ~ In "k" (removed demo_select ++ sources demo_select).
Proof. vm_compute. intuition discriminate. Qed.
(** hypotheses of c45_merge_is_sequential_partial and c44_*: two Selects without common keys *)
Definition demo_select2 : sel nat :=
  sel_init (PMap []) (PMap []) (NStr "x") (NIter (Reiter [])) (PMap [("y", "z")]) (PMap []).
Example demo_disjoint :
  reachable demo_select2 /\ (forall k, In k (mentioned demo_select) -> In k (mentioned demo_select2) -> False) /\
  sel_apply (fst (sel_merge2 demo_select demo_select2)) (("x", 5) :: ("y", 6) :: demo_map)
  = Ok [("k", 4); ("c", 2); ("z", 6); ("e", 3); ("n", 10); ("m", 12)].
Proof.
  split; [|split].
  - constructor. repeat split; reflexivity.
  - intros k. vm_compute. intuition (subst; discriminate).
  - vm_compute. reflexivity.
Qed.
(** hypotheses of c37_rename_roundtrip *)
Example demo_rename :
  let r := [("a", "x"); ("b", "y")] in
  NoDup (map fst r) /\ NoDup (map snd r) /\ (forall k, In k (map fst r) -> In k (keys demo_map)) /\
  (forall k, In k (map snd r) -> ~ In k (keys demo_map)) /\
  sel_apply (renaming r) demo_map = Ok [("d", 3); ("k", 4); ("x", 1); ("y", 2)].
Proof.
  cbn. repeat split; try (repeat constructor; simpl; intuition discriminate).
  - intros k [<-|[<-|[]]]; simpl; auto.
  - intros k [<-|[<-|[]]]; simpl; intuition discriminate.
Qed.

(** hypotheses of c45_in_order_partial and c45_after_removing_partial: both Selects are about "x", "y" *)
Definition demo_remover : sel nat :=
  sel_init (PMap []) (PMap []) (NIter (Reiter ["x"; "y"])) (NIter (Reiter [])) (PMap []) (PMap []).
Definition demo_readder : sel nat :=
  sel_init (PMap [("x", 7)]) (PMap [("y", 8)]) (NIter (Reiter [])) (NIter (Reiter [])) (PMap [("b", "z")]) (PMap []).
Example demo_in_order :
  reachable demo_remover /\ reachable demo_readder /\
  (forall e, In e (documented_edits demo_remover) -> exists k, e = Remove k) /\
  sel_apply (fst (sel_merge2 demo_remover demo_readder)) (("x", 5) :: ("y", 6) :: demo_map)
  = Ok [("a", 1); ("d", 3); ("k", 4); ("z", 2); ("x", 7); ("y", 8)].
Proof.
  split; [|split; [|split]].
  - constructor. repeat split; reflexivity.
  - constructor. repeat split; reflexivity.
  - intros e. vm_compute. intros [<-|[<-|[]]]; eauto.
  - vm_compute. reflexivity.
Qed.

Example c48_case :
  let s := sel_init (PMap []) (PMap []) (NIter (Reiter [])) (NIter (Reiter [])) (PMap []) (PMap [("x", "y")]) in
  sel_apply s [("x", 1); ("y", 2)] = Raise (mkexc ValueError "key y cannot be overridden in map") /\
  sel_apply s [("z", 0); ("y", 2)] = Ok [("z", 0); ("y", 2)] /\ sel_apply s [("x", 1); ("z", 2)] = Ok [("z", 2); ("y", 1)].
Proof. vm_compute. repeat split. Qed.
