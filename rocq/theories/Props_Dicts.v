(** Props_Dicts.v -- property theorems: Which dicts factories and exporters edit (records/select.py, records/record.py)
    Each theorem is closed by the lemma of the same statement in Dicts_main.v; the examples
    show that concrete, non-trivial cases meet the hypotheses. *)

From Verif Require Import Base Dict_proofs Select Spec_Select Select_proofs Select_proofs2 Dicts Spec_Dicts.
Open Scope string_scope.
Open Scope list_scope.

From Verif Require Import Dicts_main.

(** C46, C140: from_mapping calls the class with what the mappings hold -- the first that has a
    name wins, keywords come last -- as edited by the Select; whether that succeeds or not, every
    dict of the program is as before.  (Defaultdicts are excluded: c140_defaultdict_refuted.) *)
Theorem c46_from_mapping_partial : forall {V A} uk ui us (s : sel V) maps kw (mk : dict V -> M (heap V) A) h,
  user_shows uk ui us -> reachable s -> dict_ok kw -> Forall (ordinary h) maps ->
  exists h1, kept h h1 /\
  match edits (asked s) (over (holds us h (MChain maps)) (fun k => dget k kw)) with
  | Done f => exists d, dict_ok d /\ (forall k, dget k d = f k) /\ from_mapping_on uk ui s maps kw mk h = mk d h1
  | v => exists e, refusal v = Some e /\ from_mapping_on uk ui s maps kw mk h = (Raise e, h1)
  end.
Proof. exact (@c46_from_mapping_partial_proof). Qed.
Print Assumptions c46_from_mapping_partial.

(** C46 for from_instance: what is read from the object, updated with the mapping and then with
    the keywords, and edited by the Select.  The object's own dict is not the one edited. *)
Theorem c46_from_instance_partial : forall {V A} uk ui us (s : sel V) extract maps kw (mk : dict V -> M (heap V) A) h d0 h0,
  user_shows uk ui us -> reachable s -> dict_ok kw -> (List.length maps <= 1)%nat -> Forall (ordinary h) maps ->
  extract h = (Ok d0, h0) -> dict_ok d0 -> kept h h0 ->
  exists h1, kept h h1 /\
  match edits (asked s) (over (fun k => dget k kw) (over (holds us h (MChain maps)) (fun k => dget k d0))) with
  | Done f => exists d, dict_ok d /\ (forall k, dget k d = f k) /\ from_instance_on uk ui s extract maps kw mk h = mk d h1
  | v => exists e, refusal v = Some e /\ from_instance_on uk ui s extract maps kw mk h = (Raise e, h1)
  end.
Proof. exact (@c46_from_instance_partial_proof). Qed.
Print Assumptions c46_from_instance_partial.

(** C46: from_instance given more than one mapping refuses them, and does not call the class. *)
Theorem c46_two_mappings : forall {V A} uk ui (s : sel V) extract maps kw (mk : dict V -> M (heap V) A) h d0 h0,
  (2 <= List.length maps)%nat -> extract h = (Ok d0, h0) ->
  exists e h1, from_instance_on uk ui s extract maps kw mk h = (Raise e, h1) /\ exc_cls e = TypeError /\ kept h0 h1.
Proof. exact (@c46_two_mappings_proof). Qed.
Print Assumptions c46_two_mappings.

(** C46: an error other than KeyError of a mapping of the program is the error of
    from_mapping, also for a name that is given as a keyword; the class is not called. *)
Theorem c46_mapping_error : forall {V A} uk ui (s : sel V) u ks kw (mk : dict V -> M (heap V) A) h e,
  (forall h, uk u h = (Ok ks, h)) -> (forall k h, ui u k h = (Raise e, h)) -> is_KeyError e = false ->
  (ks <> [] \/ kw <> []) ->
  exists h1, from_mapping_on uk ui s [MUser u] kw mk h = (Raise e, h1) /\ kept h h1.
Proof. exact (@c46_mapping_error_proof). Qed.
Print Assumptions c46_mapping_error.

(** C46: to_dict gives a dict that no one else has, with the items read from the record as edited
    by the Select; every other dict is as before. *)
Theorem c46_to_dict : forall {V} uk ui (s : sel V) extract h d0 h0,
  reachable s -> extract h = (Ok d0, h0) -> dict_ok d0 -> kept h h0 ->
  exists h1, kept h0 h1 /\
  match edits (asked s) (fun k => dget k d0) with
  | Done f => exists a d, to_dict_on uk ui s extract h = (Ok (MDict a), h1) /\ nth_error h0 a = None /\
                nth_error h1 a = Some (Cell d None) /\ dict_ok d /\ forall k, dget k d = f k
  | v => exists e, refusal v = Some e /\ to_dict_on uk ui s extract h = (Raise e, h1)
  end.
Proof. exact (@c46_to_dict_proof). Qed.
Print Assumptions c46_to_dict.

(** C46 fails for factories of the program: if the factory returns a dict (its own or one it was
    given), that very dict is edited.  No other dict is. *)
Theorem c46_custom_refuted : forall {V A} uk ui (s : sel V) (func : M (heap V) mapping) (mk : dict V -> M (heap V) A) h a h0 c,
  reachable s -> func h = (Ok (MDict a), h0) -> nth_error h0 a = Some c -> dict_ok (items c) ->
  exists h1 d, kept_but a h0 h1 /\ nth_error h1 a = Some (Cell d (missing c)) /\
  match edits (asked s) (fun k => dget k (items c)) with
  | Done f => dict_ok d /\ (forall k, dget k d = f k) /\ run uk ui func s mk h = mk d h1
  | v => exists e, refusal v = Some e /\ run uk ui func s mk h = (Raise e, h1)
  end.
Proof. exact (@c46_custom_refuted_proof). Qed.
Print Assumptions c46_custom_refuted.

(** C140 fails for a defaultdict: for every keyword that is no key of it the class gets the
    default in place of the value of the keyword (the Select edits are made after that), and the
    caller's defaultdict has the keyword as a new key.  No other dict is changed. *)
Theorem c140_defaultdict_refuted : forall {V A} uk ui (s : sel V) (mk : dict V -> M (heap V) A) h a d v0 kw,
  reachable s -> nth_error h a = Some (Cell d (Some v0)) -> dict_ok d -> dict_ok kw ->
  let default k := match dget k kw with Some _ => Some v0 | None => None end in
  exists h1 d2, kept_but a h h1 /\ nth_error h1 a = Some (Cell d2 (Some v0)) /\
  (forall k, dget k d2 = over (fun k => dget k d) default k) /\
  match edits (asked s) (over (fun k => dget k d) default) with
  | Done f => exists d1, dict_ok d1 /\ (forall k, dget k d1 = f k) /\ from_mapping_on uk ui s [MDict a] kw mk h = mk d1 h1
  | v => exists e, refusal v = Some e /\ from_mapping_on uk ui s [MDict a] kw mk h = (Raise e, h1)
  end.
Proof. exact (@c140_defaultdict_refuted_proof). Qed.
Print Assumptions c140_defaultdict_refuted.

(** a heap with two dicts and a defaultdict, mappings of all kinds, and a Select that removes,
    renames and adds *)
Definition demo_heap : heap nat := [Cell [("a", 1); ("b", 2)] None; Cell [("b", 3); ("c", 4)] None; Cell [("a", 5)] (Some 0)].
Definition demo_uk : nat -> M (heap nat) (list string) := fun _ => ret ["c"; "d"].
Definition demo_ui : nat -> string -> M (heap nat) nat :=
  fun _ k h => (match dget k [("c", 8); ("d", 9)] with Some v => Ok v | None => Raise (mkexc KeyError k) end, h).
Definition demo_sel : sel nat :=
  sel_init (PMap [("n", 10)]) (PMap []) (NStr "a") (NIter (Reiter ["zz"])) (PMap [("c", "x")]) (PMap []).
Definition demo_maps : list mapping := [MProxy (MDict 0); MChain [MDict 1; MUser 0]].
(** a class that gives back the dict it is called with *)
Definition demo_mk : dict nat -> M (heap nat) (dict nat) := fun d => ret d.

(** the hypotheses of the theorems *)
Example c46_hyps :
  user_shows demo_uk demo_ui (fun _ => [("c", 8); ("d", 9)]) /\ reachable demo_sel /\ dict_ok [("d", 6); ("e", 7)] /\
  Forall (ordinary demo_heap) demo_maps.
Proof.
  split; [|split; [|split]].
  - intros u h. split; [|split; [reflexivity|]].
    + repeat constructor; simpl; intuition discriminate.
    + intros k. reflexivity.
  - constructor. repeat split; reflexivity.
  - repeat constructor; simpl; intuition discriminate.
  - repeat constructor; cbn; eexists; split; try reflexivity; repeat constructor; simpl; intuition discriminate.
Qed.

Example c46_from_mapping_runs :
  from_mapping_on demo_uk demo_ui demo_sel demo_maps [("d", 6); ("e", 7)] demo_mk demo_heap
  = (Ok [("d", 9); ("e", 7); ("b", 2); ("x", 4); ("n", 10)],
     demo_heap ++ [Cell [("d", 6); ("e", 7)] None; Cell [("d", 9); ("e", 7); ("b", 2); ("x", 4); ("n", 10)] None]).
Proof. vm_compute. reflexivity. Qed.

(** from_mapping(defaultdict(int, a=5), a=6, b=7): b is 0, and is in the defaultdict afterwards *)
Example c140_defaultdict_case :
  from_mapping_on demo_uk demo_ui (sel_init (PMap []) (PMap []) (NIter (Reiter [])) (NIter (Reiter [])) (PMap []) (PMap []))
    [MDict 2] [("a", 6); ("b", 7)] demo_mk demo_heap
  = (Ok [("a", 5); ("b", 0)],
     [Cell [("a", 1); ("b", 2)] None; Cell [("b", 3); ("c", 4)] None; Cell [("a", 5); ("b", 0)] (Some 0);
      Cell [("a", 6); ("b", 7)] None]).
Proof. vm_compute. reflexivity. Qed.

(** from_instance with a mapping and keywords; what is read from the object is a dict it keeps *)
Example c46_from_instance_case :
  let extract : M (heap nat) (dict nat) := fun h => (Ok [("a", 1); ("c", 2)], h) in
  from_instance_on demo_uk demo_ui demo_sel extract [MDict 1] [("b", 6)] demo_mk demo_heap
  = (Ok [("b", 6); ("x", 4); ("n", 10)], demo_heap ++ [Cell [("b", 6); ("x", 4); ("n", 10)] None]).
Proof. vm_compute. reflexivity. Qed.

(** to_dict, and a factory that returns the dict 1, which it still has *)
Example c46_to_dict_case :
  to_dict_on demo_uk demo_ui demo_sel (fun h => (Ok [("a", 1); ("c", 2)], h)) demo_heap
  = (Ok (MDict 3), demo_heap ++ [Cell [("x", 2); ("n", 10)] None]) /\
  run demo_uk demo_ui (ret (MDict 1)) demo_sel demo_mk demo_heap
  = (Raise (mkexc KeyError "a"), demo_heap) /\
  snd (run demo_uk demo_ui (ret (MDict 0)) demo_sel demo_mk demo_heap)
  = [Cell [("b", 2)] None; Cell [("b", 3); ("c", 4)] None; Cell [("a", 5)] (Some 0)].
Proof. vm_compute. repeat split. Qed.

(** a mapping of the program whose lookups fail, and two mappings given to from_instance *)
Example c46_errors_case :
  let bad : nat -> string -> M (heap nat) nat := fun _ _ => raise (mkexc RuntimeError "closed") in
  is_KeyError (mkexc RuntimeError "closed") = false /\
  fst (from_mapping_on demo_uk bad demo_sel [MUser 0] [("d", 6)] demo_mk demo_heap) = Raise (mkexc RuntimeError "closed") /\
  fst (from_instance_on demo_uk demo_ui demo_sel (fun h => (Ok [("a", 1)], h)) [MDict 0; MDict 1] [] demo_mk demo_heap)
  = Raise (mkexc TypeError "update expected at most 1 argument").
Proof. vm_compute. repeat split. Qed.
