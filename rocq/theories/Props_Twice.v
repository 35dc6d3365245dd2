(** Props_Twice.v -- property theorems: Selects applied again (records/select.py:103-145)
    Each theorem is closed by the lemma of the same statement in Twice_main.v; the examples
    show that concrete, non-trivial cases meet the hypotheses. *)

From Verif Require Import Base Dict_proofs Py Select Spec_Select Select_proofs Select_proofs2 Select_main Spec_Edits Filler Classes Runtime Record Spec_Record Spec_Seeds Spec_Keywords Demo DemoRt DemoCls.
From Verif Require Export_main Reorder_main Keywords_main.
Open Scope string_scope.
Open Scope list_scope.

From Verif Require Import Twice_main.

(** C175: what a Select of optional edits made is left as it is when the Select is applied again, if no old name is a new one, too: data that was
    converted already can be converted again *)
Theorem c175_again : forall (A : Type) (s : sel A) (d d1 : dict A), reachable s -> dict_ok d -> lenient s -> one_way s ->
  sel_apply s d = Ok d1 -> exists d2, sel_apply s d1 = Ok d2 /\ forall k, dget k d2 = dget k d1.
Proof. exact (@c175_again_proof). Qed.
Print Assumptions c175_again.

(** C175: from_mapping with such a Select makes the same record from a mapping and from what the Select makes of it; or it refuses both *)
Theorem c175_record : forall {obj ty W} (R : Rt obj ty W) n c (s : sel obj) m m1 d d1 w, reachable s -> lenient s -> one_way s ->
  is_mapping R m d -> is_mapping R m1 d1 -> sel_apply s d = Ok d1 -> no_reserved d1 -> separate R c d1 -> no_post_new R c ->
  match from_mapping R (S n) c s [m] [] w, from_mapping R (S n) c s [m1] [] w with
  | (Ok x, w1), (Ok y, w2) => y = x /\ same_but_order R x w1 w2
  | (Raise _, _), (Raise _, _) => True
  | _, _ => False
  end.
Proof. exact (@c175_record_proof). Qed.
Print Assumptions c175_record.

(** C175: a Select that only removes and adds, optionally, refuses no mapping *)
Theorem c175_never_refuses : forall (A : Type) (s : sel A) (d : dict A), reachable s -> dict_ok d -> lenient s -> elements (s_mren s) = [] ->
  exists d1, sel_apply s d = Ok d1.
Proof. exact (@c175_never_refuses_proof). Qed.
Print Assumptions c175_never_refuses.

(** C175: refuted for strict edits: what was removed or renamed cannot be found again *)
Theorem c175_strict_refuted : exists (s : sel nat) (d d1 : dict nat) k, reachable s /\ dict_ok d /\ one_way s /\
  sel_apply s d = Ok d1 /\ sel_apply s d1 = Raise (mkexc KeyError k).
Proof. exact (@c175_strict_refuted_proof). Qed.
Print Assumptions c175_strict_refuted.

(** C175: refuted if a name is given up and used anew: a removed key whose name is a new name is lost the second time *)
Theorem c175_reused_refuted : exists (s : sel nat) (d d1 d2 : dict nat) k v, reachable s /\ dict_ok d /\ lenient s /\
  sel_apply s d = Ok d1 /\ sel_apply s d1 = Ok d2 /\ dget k d1 = Some v /\ dget k d2 = None.
Proof. exact (@c175_reused_refuted_proof). Qed.
Print Assumptions c175_reused_refuted.

Example c175_case : exists s : sel nat, reachable s /\ lenient s /\ one_way s /\
  sel_apply s [("old", 1); ("x", 2); ("junk", 3)] = Ok [("x", 2); ("new", 1); ("y", 5)] /\
  sel_apply s [("x", 2); ("new", 1); ("y", 5)] = Ok [("x", 2); ("new", 1); ("y", 5)].
Proof.
  exists (sel_init (PMap []) (PMap [("y", 5)]) (NIter (Reiter [])) (NIter (Reiter ["junk"])) (PMap []) (PMap [("old", "new")])).
  split; [apply reach_init; repeat split|]. split; [repeat split|]. split; [|split; reflexivity].
  split; cbn; [|intros k [<-|[]] [X|[]]; discriminate X]. intros k [<-|[]]. split; intros [X|[]]; discriminate X.
Qed.

(** a class with two fields that check types, and a Select that renames one of them *)
Definition pair_of_ints := rdecl 0 false false (Some false) SCheck [("a", (an TInt, NoDefault)); ("b", (an TInt, NoDefault))] [] no_post.
Definition from_old : sel dobj := sel_init (PMap []) (PMap [("b", DInt 7)]) (NIter (Reiter [])) (NIter (Reiter ["junk"])) (PMap []) (PMap [("old", "a")]).
Example c175_record_case : let c := made_of pair_of_ints in let d := [("b", DInt 2); ("old", DInt 1); ("junk", DNone)] in let d1 := [("b", DInt 2); ("a", DInt 1)] in
  reachable from_old /\ lenient from_old /\ one_way from_old /\ is_mapping (demo_rt 0) (mapping d) d /\ is_mapping (demo_rt 0) (mapping d1) d1 /\
  sel_apply from_old d = Ok d1 /\ no_reserved d1 /\ separate (demo_rt 0) c d1 /\ no_post_new (demo_rt 0) c /\
  exists w1, from_mapping (demo_rt 0) 1 c from_old [mapping d] [] (RState [] [] []) = (Ok (DRef (TRec 0) 0), w1) /\
    from_mapping (demo_rt 0) 1 c from_old [mapping d1] [] (RState [] [] []) = (Ok (DRef (TRec 0) 0), w1).
Proof.
  cbv zeta. split; [apply reach_init; repeat split|]. split; [repeat split|].
  split; [split; [intros k [<-|[]]; split; intros [X|[]]; discriminate X|intros k [<-|[]] [X|[]]; discriminate X]|].
  split; [split; [repeat constructor; simpl; intuition discriminate|split; [reflexivity|]]|].
  { intros k w. cbn. repeat match goal with |- context [String.eqb k ?s] => destruct (String.eqb k s) end; reflexivity. }
  split; [split; [repeat constructor; simpl; intuition discriminate|split; [reflexivity|]]|].
  { intros k w. cbn. repeat match goal with |- context [String.eqb k ?s] => destruct (String.eqb k s) end; reflexivity. }
  split; [reflexivity|]. split.
  { intros k [<- | [<- | []]] HX; vm_compute in HX; repeat (destruct HX as [HX|HX]); discriminate || contradiction. }
  split; [|split; [intros x w; reflexivity|eexists; split; reflexivity]].
  intros k v g k' v' h A B N (f & E & ->) (f' & E' & ->) w a w1 b w2 HG HH.
  assert (HF : forall k v f, In (k, v) [("b", DInt 2); ("a", DInt 1)] -> dget k (c_fields (made_of pair_of_ints)) = Some f ->
                forall w, call (rt_py (demo_rt 0)) (f_filler f) v w = (Ok v, w)).
  { intros k0 v0 f0 [HX|[HX|[]]] HE w0; injection HX as <- <-; cbv in HE; injection HE as <-; reflexivity. }
  rewrite (HF _ _ _ A E) in HG. injection HG as <- <-. rewrite (HF _ _ _ B E') in HH. injection HH as <- <-.
  exists w. split; [eapply HF|eapply HF]; eassumption.
Qed.
