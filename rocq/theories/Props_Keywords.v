(** Props_Keywords.v -- property theorems: constructing records from keywords in another order (records/record.py:212-226)
    Each theorem is closed by the lemma of the same statement in Keywords_main.v; the examples
    show that concrete, non-trivial cases meet the hypotheses. *)

From Verif Require Import Base Py Select Filler Classes Runtime Record Spec_Record Spec_Seeds Spec_Keywords Demo DemoRt DemoCls.
From Verif Require Dict_proofs Record_proofs.
Open Scope string_scope.
Open Scope list_scope.

From Verif Require Import Keywords_main.

(** C153: with the same keywords in another order, either both constructions fail, or both
    give post_new the same record with the same values. *)
Theorem c153_post_new : forall {obj ty W} (R : Rt obj ty W) n c kw kw' w,
  Permutation kw kw' -> NoDup (keys kw) -> no_reserved kw -> separate R c kw ->
  (exists x w1 w2, same_but_order R x w1 w2 /\
     construct R (S n) c None kw w = post_new_result R c x w1 /\ construct R (S n) c None kw' w = post_new_result R c x w2) \/
  (exists e e' w1 w2, construct R (S n) c None kw w = (Raise e, w1) /\ construct R (S n) c None kw' w = (Raise e', w2)).
Proof. exact (@c153_post_new_proof). Qed.
Print Assumptions c153_post_new.

(** C153: if the class has no post_new, both constructions fail, or both give the same record
    with the same values. *)
Theorem c153_order : forall {obj ty W} (R : Rt obj ty W) n c kw kw' w,
  Permutation kw kw' -> NoDup (keys kw) -> no_reserved kw -> separate R c kw -> no_post_new R c ->
  match construct R (S n) c None kw w, construct R (S n) c None kw' w with
  | (Ok x, w1), (Ok y, w2) => y = x /\ same_but_order R x w1 w2
  | (Raise _, _), (Raise _, _) => True
  | _, _ => False
  end.
Proof. exact (@c153_order_proof). Qed.
Print Assumptions c153_order.

(** C153: if one value is refused and no other one, the error is the same in any order. *)
Theorem c153_error : forall {obj ty W} (R : Rt obj ty W) n c kw kw' w k e,
  Permutation kw kw' -> no_reserved kw -> known c kw -> In k (keys kw) -> is_Exception e = true ->
  (forall k' v, In (k', v) kw -> exists r, settled R c k' v r /\ (k' <> k -> exists y, r = Ok y) /\ (k' = k -> r = Raise e)) ->
  exists e', construct R (S n) c None kw w = (Raise e', w) /\ construct R (S n) c None kw' w = (Raise e', w).
Proof. exact (@c153_error_proof). Qed.
Print Assumptions c153_error.

(** C153, refuted: if several values are refused, the error depends on the order. *)
Theorem c153_errors_refuted : exists (R : Rt dobj dty rstate) d c e e' w,
  make_class (rt_py R) d = Ok c /\
  construct R 1 c None [("a", DNone); ("b", DNone)] w = (Raise e, w) /\ construct R 1 c None [("b", DNone); ("a", DNone)] w = (Raise e', w) /\
  exc_msg e = "error filling filling a" /\ exc_msg e' = "error filling filling b".
Proof. exact (@c153_errors_refuted_proof). Qed.
Print Assumptions c153_errors_refuted.

(** a class with two fields that check types *)
Definition two_decl := rdecl 0 false false (Some false) SCheck [("a", (an TInt, NoDefault)); ("b", (an TInt, NoDefault))] [] no_post.
Example c153_case : let c := made_of two_decl in let kw := [("a", DInt 1); ("b", DInt 2)] in
  NoDup (keys kw) /\ no_reserved kw /\ separate (demo_rt 0) c kw /\ no_post_new (demo_rt 0) c /\
  (exists w1 w2, construct (demo_rt 0) 1 c None kw (RState [] [] []) = (Ok (DRef (TRec 0) 0), w1) /\
     construct (demo_rt 0) 1 c None (rev kw) (RState [] [] []) = (Ok (DRef (TRec 0) 0), w2) /\ w1 <> w2).
Proof.
  cbv zeta. split; [repeat constructor; simpl; intuition discriminate|]. split.
  - intros k [<- | [<- | []]] HX; vm_compute in HX; repeat (destruct HX as [HX|HX]); discriminate || contradiction.
  - split; [|split; [intros x w; reflexivity|eexists; eexists; split; [reflexivity|]; split; [reflexivity|discriminate]]].
    intros k v g k' v' h A B N (f & E & ->) (f' & E' & ->) w a w1 b w2 HG HH.
    assert (HF : forall k v f, In (k, v) [("a", DInt 1); ("b", DInt 2)] -> dget k (c_fields (made_of two_decl)) = Some f ->
                  forall w, call (rt_py (demo_rt 0)) (f_filler f) v w = (Ok v, w)).
    { intros k0 v0 f0 [HX|[HX|[]]] HE w0; injection HX as <- <-; cbv in HE; injection HE as <-; reflexivity. }
    rewrite (HF _ _ _ A E) in HG. injection HG as <- <-. rewrite (HF _ _ _ B E') in HH. injection HH as <- <-.
    exists w. split; [eapply HF|eapply HF]; eassumption.
Qed.
(** one value refused *)
Example c153_error_case : let c := made_of two_decl in
  (exists e, settled (demo_rt 0) c "a" DNone (Raise e) /\ is_Exception e = true) /\ settled (demo_rt 0) c "b" (DInt 2) (Ok (DInt 2)).
Proof.
  cbv zeta. split.
  - eexists. split; [|]. 
    + eexists. split; [eexists; split; [vm_compute; reflexivity|reflexivity]|]. intro w. reflexivity.
    + reflexivity.
  - eexists. split; [eexists; split; [vm_compute; reflexivity|reflexivity]|]. intro w. reflexivity.
Qed.
