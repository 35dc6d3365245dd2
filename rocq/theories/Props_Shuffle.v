(** Props_Shuffle.v -- property theorems: the edits of a Select in another order (records/select.py:42-145)
    Each theorem is closed by the lemma of the same statement in Shuffle_main.v; the examples
    show that concrete, non-trivial cases meet the hypotheses. *)

From Verif Require Import Base Dict_proofs Py Select Spec_Select Select_proofs Select_proofs2 Select_main Spec_Edits Filler Classes Runtime Record Spec_Record Spec_Seeds Spec_Keywords Demo DemoRt DemoCls.
From Verif Require Twice_main Reorder_main Keywords_main Export_main Inst_proofs Factories_main.
Open Scope string_scope.
Open Scope list_scope.

From Verif Require Import Shuffle_main.

(** C176: in each argument of a Select the edits may stand in any order, if renamings form no chains and no key is optionally renamed or added twice:
    both Selects refuse a mapping, or both give every key the same value *)
Theorem c176_order : forall (A : Type) (s s' : sel A) (d : dict A), reachable s -> reachable s' -> dict_ok d ->
  shuffled s s' -> unchained (elements (s_ren s)) -> unchained (elements (s_mren s)) -> chosen_once s ->
  match sel_apply s d, sel_apply s' d with
  | Ok d1, Ok d2 => Permutation d1 d2 /\ forall k, dget k d1 = dget k d2
  | Raise _, Raise _ => True
  | _, _ => False
  end.
Proof. exact (@c176_order_proof). Qed.
Print Assumptions c176_order.

(** C176: Selects may be merged in either order, with the same exceptions *)
Theorem c176_merge : forall (A : Type) (s t : sel A) (d : dict A), reachable s -> reachable t -> dict_ok d ->
  let st := fst (sel_merge2 s t) in let ts := fst (sel_merge2 t s) in
  unchained (elements (s_ren st)) -> unchained (elements (s_mren st)) -> chosen_once st ->
  match sel_apply st d, sel_apply ts d with
  | Ok d1, Ok d2 => Permutation d1 d2 /\ forall k, dget k d1 = dget k d2
  | Raise _, Raise _ => True
  | _, _ => False
  end.
Proof. exact (@c176_merge_proof). Qed.
Print Assumptions c176_merge.

(** C176: from_mapping with either of two such Selects makes the same record; or it refuses with both *)
Theorem c176_record : forall {obj ty W} (R : Rt obj ty W) n c (s s' : sel obj) m d w, reachable s -> reachable s' -> is_mapping R m d ->
  shuffled s s' -> unchained (elements (s_ren s)) -> unchained (elements (s_mren s)) -> chosen_once s ->
  (forall d1, sel_apply s d = Ok d1 -> no_reserved d1 /\ separate R c d1) -> no_post_new R c ->
  match from_mapping R (S n) c s [m] [] w, from_mapping R (S n) c s' [m] [] w with
  | (Ok x, w1), (Ok y, w2) => y = x /\ same_but_order R x w1 w2
  | (Raise _, _), (Raise _, _) => True
  | _, _ => False
  end.
Proof. exact (@c176_record_proof). Qed.
Print Assumptions c176_record.

(** C176: from_json with either of two such Selects makes the same record of a JSON object; or it refuses with both *)
Theorem c176_json : forall {obj ty W} (R : Rt obj ty W) n c (s s' : sel obj) t o d w w0, reachable s -> reachable s' ->
  json_loads R t w = (Ok o, w0) -> is_mapping R o d -> (forall w, unpack R o w = (Ok d, w)) -> (forall w, as_dict R o w = (Ok d, w)) ->
  shuffled s s' -> unchained (elements (s_ren s)) -> unchained (elements (s_mren s)) -> chosen_once s ->
  (forall d1, sel_apply s d = Ok d1 -> no_reserved d1 /\ separate R c d1) -> no_post_new R c ->
  match from_json R (S n) c s t w, from_json R (S n) c s' t w with
  | (Ok x, w1), (Ok y, w2) => y = x /\ same_but_order R x w1 w2
  | (Raise _, _), (Raise _, _) => True
  | _, _ => False
  end.
Proof. exact (@c176_json_proof). Qed.
Print Assumptions c176_json.

(** C176: to_dict with either of two such Selects gives the same items, with the same effects; or it fails with both *)
Theorem c176_export : forall {obj ty W} (R : Rt obj ty W) ctx (s s' : sel obj) x a w, reachable s -> reachable s' ->
  shuffled s s' -> unchained (elements (s_ren s)) -> unchained (elements (s_mren s)) -> chosen_once s ->
  (forall d w', to_dict R ctx x a sel_empty w = (Ok d, w') -> dict_ok d) ->
  match to_dict R ctx x a s w, to_dict R ctx x a s' w with
  | (Ok d1, w1), (Ok d2, w2) => Permutation d1 d2 /\ w2 = w1
  | (Raise _, w1), (Raise _, w2) => w2 = w1
  | _, _ => False
  end.
Proof. exact (@c176_export_proof). Qed.
Print Assumptions c176_export.

(** C175: a Select of optional edits without chains, merged with itself, does what it does alone *)
Theorem c175_merged : forall (A : Type) (s : sel A) (d : dict A), reachable s -> dict_ok d -> lenient s -> unchained (elements (s_mren s)) ->
  match sel_apply s d, sel_apply (fst (sel_merge2 s s)) d with
  | Ok d1, Ok d2 => forall k, dget k d1 = dget k d2
  | Raise _, Raise _ => True
  | _, _ => False
  end.
Proof. exact (@c175_merged_proof). Qed.
Print Assumptions c175_merged.

(** C176: refuted for chains of renamings: with "a" to "b" and "b" to "c", one order refuses what the other accepts *)
Theorem c176_chain_refuted : exists (s s' : sel nat) (d d1 : dict nat) e, reachable s /\ reachable s' /\ dict_ok d /\ shuffled s s' /\ chosen_once s /\
  sel_apply s d = Ok d1 /\ sel_apply s' d = Raise e.
Proof. exact (@c176_chain_refuted_proof). Qed.
Print Assumptions c176_chain_refuted.

(** C176: refuted for a key that is optionally added twice: the first value is taken *)
Theorem c176_twice_refuted : exists (s s' : sel nat) (d d1 d2 : dict nat) k, reachable s /\ reachable s' /\ dict_ok d /\ shuffled s s' /\
  unchained (elements (s_ren s)) /\ unchained (elements (s_mren s)) /\ sel_apply s d = Ok d1 /\ sel_apply s' d = Ok d2 /\ dget k d1 <> dget k d2.
Proof. exact (@c176_twice_refuted_proof). Qed.
Print Assumptions c176_twice_refuted.

Example c176_case : let s := renaming [("a", "x"); ("b", "y")] : sel nat in let s' := renaming [("b", "y"); ("a", "x")] in
  reachable s /\ reachable s' /\ shuffled s s' /\ unchained (elements (s_ren s)) /\ unchained (elements (s_mren s)) /\ chosen_once s /\
  sel_apply s [("a", 1); ("b", 2)] = Ok [("x", 1); ("y", 2)] /\ sel_apply s' [("a", 1); ("b", 2)] = Ok [("y", 2); ("x", 1)].
Proof.
  cbv zeta. split; [apply reach_init; repeat split|]. split; [apply reach_init; repeat split|]. split; [repeat split; cbn; try apply perm_nil; apply perm_swap|].
  split; [intros k [<-|[<-|[]]] [X|[X|[]]]; discriminate X|]. split; [intros k []|]. split; [split; constructor|]. split; reflexivity.
Qed.
Definition ints := rdecl 0 false false (Some false) SCheck [("x", (an TInt, NoDefault)); ("y", (an TInt, NoDefault))] [] no_post.
Example c176_record_case : let c := made_of ints in let s := renaming [("a", "x"); ("b", "y")] in let s' := renaming [("b", "y"); ("a", "x")] in
  let d := [("a", DInt 1); ("b", DInt 2)] in
  is_mapping (demo_rt 0) (mapping d) d /\ no_post_new (demo_rt 0) c /\ (forall d1, sel_apply s d = Ok d1 -> no_reserved d1 /\ separate (demo_rt 0) c d1) /\
  exists w1 w2, from_mapping (demo_rt 0) 1 c s [mapping d] [] (RState [] [] []) = (Ok (DRef (TRec 0) 0), w1) /\
    from_mapping (demo_rt 0) 1 c s' [mapping d] [] (RState [] [] []) = (Ok (DRef (TRec 0) 0), w2) /\ w1 <> w2.
Proof.
  cbv zeta. split; [split; [repeat constructor; simpl; intuition discriminate|split; [reflexivity|]]|].
  { intros k w. cbn. repeat match goal with |- context [String.eqb k ?s] => destruct (String.eqb k s) end; reflexivity. }
  split; [intros x w; reflexivity|]. split; [|do 2 eexists; split; [reflexivity|]; split; [reflexivity|discriminate]].
  intros d1 HD. vm_compute in HD. injection HD as <-. split.
  { intros k [<- | [<- | []]] HX; vm_compute in HX; repeat (destruct HX as [HX|HX]); discriminate || contradiction. }
  intros k v g k' v' h A B N (f & E & ->) (f' & E' & ->) w a w1 b w2 HG HH.
  assert (HF : forall k v f, In (k, v) [("x", DInt 1); ("y", DInt 2)] -> dget k (c_fields (made_of ints)) = Some f ->
                forall w, call (rt_py (demo_rt 0)) (f_filler f) v w = (Ok v, w)).
  { intros k0 v0 f0 [HX|[HX|[]]] HE w0; injection HX as <- <-; cbv in HE; injection HE as <-; reflexivity. }
  rewrite (HF _ _ _ A E) in HG. injection HG as <- <-. rewrite (HF _ _ _ B E') in HH. injection HH as <- <-.
  exists w. split; [eapply HF|eapply HF]; eassumption.
Qed.
Example c176_merge_case : let s := renaming [("a", "x")] : sel nat in let t := renaming [("b", "y")] in
  reachable s /\ reachable t /\ unchained (elements (s_ren (fst (sel_merge2 s t)))) /\ unchained (elements (s_mren (fst (sel_merge2 s t)))) /\ chosen_once (fst (sel_merge2 s t)) /\
  sel_apply (fst (sel_merge2 s t)) [("a", 1); ("b", 2)] = Ok [("x", 1); ("y", 2)] /\ sel_apply (fst (sel_merge2 t s)) [("a", 1); ("b", 2)] = Ok [("y", 2); ("x", 1)].
Proof.
  cbv zeta. split; [apply reach_init; repeat split|]. split; [apply reach_init; repeat split|].
  split; [intros k [<-|[<-|[]]] [X|[X|[]]]; discriminate X|]. split; [intros k []|]. split; [split; constructor|]. split; reflexivity.
Qed.
Example c175_merged_case : let s := sel_init (PMap []) (PMap [("y", 5)]) (NIter (Reiter [])) (NIter (Reiter ["junk"])) (PMap []) (PMap [("old", "new")]) in
  reachable s /\ lenient s /\ unchained (elements (s_mren s)) /\
  sel_apply (fst (sel_merge2 s s)) [("old", 1); ("x", 2); ("junk", 3)] = Ok [("x", 2); ("new", 1); ("y", 5)].
Proof. cbv zeta. split; [apply reach_init; repeat split|]. split; [repeat split|]. split; [intros k [<-|[]] [X|[]]; discriminate X|]. reflexivity. Qed.
Definition ints_ctx (t : dty) : option (@cls dobj dty rstate) := match t with TRec 0 => Some (made_of ints) | _ => None end.
Example c176_export_case : let w := snd (construct (demo_rt 0) 1 (made_of ints) None [("x", DInt 1); ("y", DInt 2)] (RState [] [] [])) in
  let s := renaming [("x", "a"); ("y", "b")] in let s' := renaming [("y", "b"); ("x", "a")] in let p := DRef (TRec 0) 0 in
  shuffled s s' /\ unchained (elements (s_ren s)) /\ chosen_once s /\
  (forall d w', to_dict (demo_rt 0) ints_ctx p no_args sel_empty w = (Ok d, w') -> dict_ok d) /\
  to_dict (demo_rt 0) ints_ctx p no_args s w = (Ok [("a", DInt 1); ("b", DInt 2)], w) /\ to_dict (demo_rt 0) ints_ctx p no_args s' w = (Ok [("b", DInt 2); ("a", DInt 1)], w).
Proof.
  cbv zeta. split; [repeat split; cbn; try apply perm_nil; apply perm_swap|]. split; [intros k [<-|[<-|[]]] [X|[X|[]]]; discriminate X|]. split; [split; constructor|].
  split; [|split; reflexivity]. intros d w' H. vm_compute in H. injection H as <- _. repeat constructor; simpl; intuition discriminate.
Qed.
(** the JSON text of the mapping in c176_record_case *)
Example c176_json_case : let c := made_of ints in let d := [("a", DInt 1); ("b", DInt 2)] in let t := DTuple (DCons (mapping d) DNil) in let w := RState [] [] [] in
  json_loads (demo_rt 0) t w = (Ok (mapping d), w) /\ (forall w, unpack (demo_rt 0) (mapping d) w = (Ok d, w)) /\ (forall w, as_dict (demo_rt 0) (mapping d) w = (Ok d, w)) /\
  exists w1 w2, from_json (demo_rt 0) 1 c (renaming [("a", "x"); ("b", "y")]) t w = (Ok (DRef (TRec 0) 0), w1) /\
    from_json (demo_rt 0) 1 c (renaming [("b", "y"); ("a", "x")]) t w = (Ok (DRef (TRec 0) 0), w2) /\ w1 <> w2.
Proof. cbv zeta. split; [reflexivity|]. split; [reflexivity|]. split; [reflexivity|]. do 2 eexists. split; [reflexivity|]. split; [reflexivity|discriminate]. Qed.
