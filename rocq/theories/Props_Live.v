(** Props_Live.v -- property theorems: C127: what a Select does after it was made
    Each theorem is closed by the lemma of the same statement in Live_main.v; the examples
    show that concrete, non-trivial cases meet the hypotheses. *)

From Verif Require Import Base Dict_proofs Select Select_proofs Select_proofs2 Live.
Open Scope string_scope.
Open Scope list_scope.

From Verif Require Import Live_main.

(** A Select made of mappings, tuples and names does, after any history, what a Select made of
    the same arguments does at once: whatever was done with it, with other Selects and with the
    lists of the program (the contents [h] is arbitrary). *)
Theorem c127_copied_partial : forall {A} (h0 : lists_now A) xs a ma r mr n mn,
  copied a = true -> copied ma = true -> copied r = true -> copied mr = true -> copied n = true -> copied mn = true ->
  let st := steps (h0, []) xs in
  forall ys d h,
  effect (steps st (New a ma r mr n mn :: ys)) (List.length (snd st)) d
  = Some (sel_apply (made_now h a ma r mr n mn) d).
Proof. exact (@c127_copied_partial_proof). Qed.
Print Assumptions c127_copied_partial.

(** Merging two Selects that are both true makes a new Select, that from then on does what it
    does at once, even if the two were made of lists that change later. *)
Theorem c127_merged_partial : forall {A} (h0 : lists_now A) xs i j s t,
  let st := steps (h0, []) xs in
  nth_error (snd st) i = Some s -> nth_error (snd st) j = Some t ->
  fst (sel_truth (now (fst st) s)) = true -> fst (sel_truth (now (fst st) t)) = true ->
  forall ys d,
  effect (steps st (Merge i j :: ys)) (List.length (snd st)) d
  = Some (sel_apply (fst (sel_merge2 (now (fst st) s) (now (fst st) t))) d).
Proof. exact (@c127_merged_partial_proof). Qed.
Print Assumptions c127_merged_partial.

(** A Select made of a list is not immutable: until it is asked for its truth, applied or merged,
    it does what a Select made of the present contents of the list does. *)
Theorem c127_list_refuted : forall {A} (h0 : lists_now A) xs a ma r mr n mn ys,
  let st := steps (h0, []) xs in
  forallb (leaves_alone (List.length (snd st))) ys = true ->
  let st' := steps st (New a ma r mr n mn :: ys) in
  forall d, effect st' (List.length (snd st)) d = Some (sel_apply (made_now (fst st') a ma r mr n mn) d).
Proof. exact (@c127_list_refuted_proof). Qed.
Print Assumptions c127_list_refuted.

(** So its effect changes: there are two moments of one history at which it does different things. *)
Theorem c127_changes_refuted : forall {A} (v : A), exists (h0 : lists_now A) xs ys i d,
  effect (steps (h0, []) xs) i d <> effect (steps (h0, []) (xs ++ ys)) i d.
Proof. exact (@c127_changes_refuted_proof). Qed.
Print Assumptions c127_changes_refuted.

(** A Select made of a list that was empty when the Select was first asked for its truth, applied
    or merged does nothing ever after, whatever the list holds later. *)
Theorem c127_stale_refuted : forall {A} (h0 : lists_now A) xs k ys x,
  let st := steps (h0, []) xs in
  let i := List.length (snd st) in
  names_at (fst st) k = [] ->
  (x = Ask i \/ (exists d, x = Use i d) \/ (exists j, (j < i)%nat /\ x = Merge i j)) ->
  forall d,
  effect (steps st (New (GivenTuple []) (GivenTuple []) (GivenList k) (GivenTuple []) (GivenTuple []) (GivenTuple [])
                    :: x :: ys)) i d = Some (Ok d).
Proof. exact (@c127_stale_refuted_proof). Qed.
Print Assumptions c127_stale_refuted.

(** a Select of a mapping, a merge of Selects of lists, and the lists changed in between *)
Example c127_case :
  let h0 := @Lists nat (fun _ => []) (fun k => if Nat.eqb k 0 then ["a"] else ["b"]) (fun _ => []) in
  let h1 := @Lists nat (fun _ => []) (fun _ => ["z"]) (fun _ => []) in
  let of_list k := New (GivenTuple []) (GivenTuple []) (GivenList k) (GivenTuple []) (GivenTuple []) (GivenTuple []) in
  let st := steps (h0, []) [of_list 0%nat; of_list 1%nat; Merge 0%nat 1%nat;
                            New (GivenTuple [("k", 1)]) (GivenTuple []) (GivenTuple []) (GivenStr "a") (GivenTuple []) (GivenTuple []);
                            Change h1] in
  effect st 0%nat [("a", 1); ("b", 2)] = Some (Raise (mkexc KeyError "z"))
  /\ effect st 2%nat [("a", 1); ("b", 2); ("c", 3)] = Some (Ok [("c", 3)])
  /\ effect st 3%nat [("a", 1); ("b", 2)] = Some (Ok [("b", 2); ("k", 1)])%nat.
Proof. repeat split. Qed.
